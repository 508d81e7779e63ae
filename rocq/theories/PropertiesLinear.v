(** C130: linear changes of the parameters. *)
From Coq Require Import String.
From Verif Require Import Base ModelLinAlg SpecLinAlg ModelKernels SpecKernels ModelKDE SpecKDE SpecLinear ProofLinear ProofExamples ProofKDE ProofTop ProofTop3 ProofTop2.
Open Scope R_scope.
Notation length := List.length.

(** * C130 *)
(** Shifts, multiplications of a parameter and additions of a multiple of one parameter to another, in any sequence: the
    density of the changed data at the changed point, times the factor of the volumes, is the density; errors stay the same. *)
Theorem C130_change : forall n g c, linear_change n g c -> forall data w b resc d neffa (prob : bool), one_bandwidth b ->
  res_rel (fun f f' : pt -> R => forall x, f' (g x) * c = f x)
    (do K <- kde_init n data w b false resc d None neffa None ;; kde_density K prob n None PNone)
    (do K <- kde_init n (map g data) w b false resc d None neffa None ;; kde_density K prob n None PNone).
Proof. exact linear_change_density. Qed.
Print Assumptions C130_change.

(** The same for every invertible matrix: the factor depends on the matrix only. *)
Theorem C130_any : forall n G H t, is_inverse n G H -> exists c, 0 < c /\ forall (g : pt -> pt), (forall x i, (i < n)%nat -> g x i = rsum n (fun j => G i j * x j) + t i) ->
  forall data w b resc d neffa (prob : bool), one_bandwidth b ->
  res_rel (fun f f' : pt -> R => forall x, f' (g x) * c = f x)
    (do K <- kde_init n data w b false resc d None neffa None ;; kde_density K prob n None PNone)
    (do K <- kde_init n (map g data) w b false resc d None neffa None ;; kde_density K prob n None PNone).
Proof. exact any_linear. Qed.
Print Assumptions C130_any.

(** Rotations and exchanged parameters: the same density. *)
Theorem C130_rotation : forall n a b, (2 <= n)%nat -> a * a + b * b = 1 -> forall data w bw resc d neffa (prob : bool), one_bandwidth bw ->
  res_rel (fun f f' : pt -> R => forall x, f' (rotation a b x) = f x)
    (do K <- kde_init n data w bw false resc d None neffa None ;; kde_density K prob n None PNone)
    (do K <- kde_init n (map (rotation a b) data) w bw false resc d None neffa None ;; kde_density K prob n None PNone).
Proof. exact rotated. Qed.
Print Assumptions C130_rotation.

Theorem C130_exchange : forall n k l, (k < n)%nat -> (l < n)%nat -> k <> l -> forall data w bw resc d neffa (prob : bool), one_bandwidth bw ->
  res_rel (fun f f' : pt -> R => forall x, f' (exchange k l x) = f x)
    (do K <- kde_init n data w bw false resc d None neffa None ;; kde_density K prob n None PNone)
    (do K <- kde_init n (map (exchange k l) data) w bw false resc d None neffa None ;; kde_density K prob n None PNone).
Proof. exact exchanged. Qed.
Print Assumptions C130_exchange.

(** With [diagonal=True] the density of added parameters is another one. *)
Theorem C130_diagonal_refuted : exists data g c K K' f f' x, linear_change 2 g c
  /\ kde_init 2 data WNone (BwAtom (BNum (/ 10))) true None Box None None None = Ok K /\ kde_density K false 2 None PNone = Ok f
  /\ kde_init 2 (map g data) WNone (BwAtom (BNum (/ 10))) true None Box None None None = Ok K' /\ kde_density K' false 2 None PNone = Ok f'
  /\ f' (g x) * c <> f x.
Proof. exact diagonal_refuted. Qed.
Print Assumptions C130_diagonal_refuted.

(** Three points, the first parameter multiplied by -2 and three times the second added to it, then shifted: both runs succeed. *)
Example C130_example : exists g f f', linear_change 2 g 2 /\ (forall x, g x 0%nat = -2 * x 0%nat + 3 * x 1%nat + 5) /\ one_bandwidth BwNone
  /\ (do K <- kde_init 2 data2 WNone BwNone false None Triweight None None None ;; kde_density K true 2 None PNone) = Ok f
  /\ (do K <- kde_init 2 (map g data2) WNone BwNone false None Triweight None None None ;; kde_density K true 2 None PNone) = Ok f'
  /\ forall x, f' (g x) * 2 = f x.
Proof.
  set (g1 := fun (x : pt) i => if Nat.eqb i 0 then -2 * x i else x i). set (g2 := fun (x : pt) i => if Nat.eqb i 0 then x 0%nat + 3 * x 1%nat else x i).
  set (g3 := fun (x : pt) i => x i + (fun _ : nat => 5) i).
  assert (H : linear_change 2 (fun x => g3 ((fun y => g2 (g1 y)) x)) 2).
  { apply (change_mul 2 (fun y => g2 (g1 y)) g3 2 1); [|apply (lc_shift 2 (fun _ => 5))|ring].
    apply (change_mul 2 g1 g2 (Rabs (-2)) 1); [apply (lc_scale 2 0 (-2)); [lia|lra]|apply (lc_shear 2 0 1 3); lia|rewrite Rabs_left by lra; ring]. }
  destruct (data2_built Triweight None) as (K & M & N & HK & HB & _). destruct (density_plain_ex _ _ _ _ _ _ true HB) as (f & _ & Hf).
  pose proof (C130_change 2 _ _ H data2 WNone BwNone None Triweight None true (or_introl eq_refl)) as R0. rewrite HK in R0. cbn [bind] in R0. rewrite Hf in R0.
  apply res_rel_ok in R0. destruct R0 as (f' & E & R1).
  exists (fun x => g3 ((fun y => g2 (g1 y)) x)), (scaled true [1; 1; 1] f), f'. split; [exact H|]. split; [intros x; unfold g3, g2, g1; cbn; ring|]. split; [left; reflexivity|].
  split; [rewrite HK; exact Hf|]. split; [exact E|exact R1].
Qed.

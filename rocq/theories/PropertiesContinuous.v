(** C131: continuity in the evaluation point. *)
From Verif Require Import Base ModelLinAlg SpecLinAlg ModelKernels SpecKernels ModelKDE SpecKDE SpecContinuous ProofContinuous ProofExamples ProofKDE ProofTop ProofTop2 ProofTop3 ProofLinAlg.
Open Scope R_scope.
Notation length := List.length.

(** * C131 *)
(** Every kernel but the box, no boundaries: continuous everywhere, for all and for chosen parameters. *)
Theorem C131_continuous : forall n data w b diag resc d cova neffa K (prob : bool) pdim p f, d <> Box ->
  kde_init n data w b diag resc d cova neffa None = Ok K -> kde_density K prob pdim None p = Ok f -> forall x, continuous_at pdim f x.
Proof. exact plain_continuous. Qed.
Print Assumptions C131_continuous.

(** With boundaries: continuous among points on the same side, including the boundary itself seen from inside. *)
Theorem C131_side : forall n data w b diag resc d cova neffa stored K (prob : bool) pdim given f r, d <> Box ->
  kde_init n data w b diag resc d cova neffa stored = Ok K -> kde_density K prob pdim given PNone = Ok f -> in_force K given (Some r) ->
  forall x, continuous_within pdim (same_side r x) f x.
Proof. exact side_continuous. Qed.
Print Assumptions C131_side.

Theorem C131_off : forall n data w b diag resc d cova neffa stored K (prob : bool) pdim given f r, d <> Box ->
  kde_init n data w b diag resc d cova neffa stored = Ok K -> kde_density K prob pdim given PNone = Ok f -> in_force K given (Some r) ->
  forall x, off_boundaries r x -> continuous_at pdim f x.
Proof. exact off_continuous. Qed.
Print Assumptions C131_off.

(** At a boundary every kernel jumps. *)
Theorem C131_boundary_refuted : forall d, exists K f x, built_kde 1 [pt1 0] [1] d ident None K
  /\ kde_density K false 1 (Some [Some (Some 0, None)]) PNone = Ok f /\ ~ continuous_at 1 f x.
Proof. exact boundary_refuted. Qed.
Print Assumptions C131_boundary_refuted.

(** The box kernel: constant near every point that is not on the surface of a kernel. *)
Theorem C131_box : forall n data ws M K (prob : bool) N f, built_kde n data ws Box M None K -> is_inverse n M N -> kde_density K prob n None PNone = Ok f ->
  forall x, (forall p, In p data -> quad n N (psub x p) <> 1) -> exists delta, 0 < delta /\ forall y, near n delta x y -> f y = f x.
Proof. exact box_constant. Qed.
Print Assumptions C131_box.

Theorem C131_box_refuted : exists K f x, built_kde 1 [pt1 0] [1] Box ident None K /\ kde_density K false 1 None PNone = Ok f /\ ~ continuous_at 1 f x.
Proof. exact box_refuted. Qed.
Print Assumptions C131_box_refuted.

(** Three points in two dimensions, with a boundary in the first parameter, and the box kernel at one of the points. *)
Example C131_example : (exists K f, kde_init 2 data2 WNone BwNone false None Triweight None None None = Ok K /\ kde_density K true 2 None PNone = Ok f /\ continuous_at 2 f (fun _ => 0))
  /\ off_boundaries [Some (Some (-1), None); None] (fun _ => 0)
  /\ exists K M N, built_kde 2 data2 [1; 1; 1] Box M None K /\ is_inverse 2 M N /\ quad 2 N (psub q00 q00) <> 1.
Proof.
  split; [|split].
  - destruct (data2_built Triweight None) as (K & M & N & HK & HB & _). destruct (density_plain_ex _ _ _ _ _ _ true HB) as (f & _ & Hf).
    exists K, (scaled true [1; 1; 1] f). split; [exact HK|]. split; [exact Hf|]. refine (C131_continuous _ _ _ _ _ _ _ _ _ _ _ _ _ _ _ HK Hf _). discriminate.
  - intros [|[|i]] b Hb; cbn in Hb; [injection Hb as <-; cbn; split; [intros [= E]; lra|discriminate]|discriminate|destruct i; discriminate].
  - destruct (data2_built Box None) as (K & M & N & HK & HB & HI & _). exists K, M, N. split; [exact HB|]. split; [exact HI|]. unfold quad, psub. cbn [rsum]. lra.
Qed.

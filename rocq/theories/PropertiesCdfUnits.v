(** C152: the cumulative distribution and the units, order and weights of the data. *)
From Coq Require Import Permutation.
From Verif Require Import Base ModelLinAlg ModelKernels ModelKDE ModelExtrema ModelInterp ModelResample ModelUtils ModelNd ModelGrid SpecUtils SpecKDE SpecNd SpecUnits SpecCdfUnits
  ProofAffine ProofReflect1 ProofAlias ProofGrid3 ProofUnits2 ProofCdfUnits.
Open Scope R_scope.
Notation length := List.length.

(** * C152 *)
(** In other units of the coordinates, on the same grid and at the same point: the same value (not a number, or the same error). *)
Theorem C152_units : forall n data w b diag resc d neffa refl s c K K' grid pg rg x, (forall i, 0 < c i) ->
  kde_init n data w b diag resc d None neffa refl = Ok K ->
  kde_init n (map (aff s c) data) w b diag resc d None neffa (option_map (aff_refl s c 0) refl) = Ok K' ->
  length grid = n -> two_values grid -> length x = n ->
  kde_cdf K' (grid_unit s c grid) pg rg (point_unit s c x) = kde_cdf K grid pg rg x.
Proof. exact cdf_units. Qed.
Print Assumptions C152_units.

(** Moved data: the same value on the grid that KDE.points makes. *)
Theorem C152_moved : forall sorter n data w b diag resc d neffa refl s K K' bw ext edges ppf grid pg rg x, (1 <= n)%nat -> sorts sorter -> by_comparison sorter -> some_boundary n refl ->
  kde_init n data w b diag resc d None neffa refl = Ok K ->
  kde_init n (map (aff s (fun _ => 1)) data) w b diag resc d None neffa (option_map (aff_refl s (fun _ => 1) 0) refl) = Ok K' ->
  kde_extrema K ppf None = Some (Ok ext) -> length ext = n -> (forall p, In p ext -> fst p < snd p) ->
  kde_points sorter K bw ext edges = Ok grid -> length grid = n -> two_values grid -> length x = n ->
  exists ext' grid', kde_extrema K' ppf None = Some (Ok ext') /\ kde_points sorter K' bw ext' (request_unit n s (fun _ => 1) edges) = Ok grid'
    /\ kde_cdf K' grid' pg rg (point_unit s (fun _ => 1) x) = kde_cdf K grid pg rg x.
Proof. exact cdf_moved. Qed.
Print Assumptions C152_moved.

(** The order of the data does not matter ... *)
Theorem C152_order : forall n data data' l l' b diag resc d cova neffa refl grid x,
  length l = length data -> length l' = length data' -> Permutation (combine data l) (combine data' l') ->
  (do K <- kde_init n data (WArr l) b diag resc d cova neffa refl ;; kde_cdf K grid false false x)
  = (do K <- kde_init n data' (WArr l') b diag resc d cova neffa refl ;; kde_cdf K grid false false x).
Proof. exact cdf_order. Qed.
Print Assumptions C152_order.

(** ... nor does a common factor of the weights ... *)
Theorem C152_weights : forall k n data l b diag resc d cova neffa refl grid x, 0 < k ->
  (do K <- kde_init n data (WArr (map (fscale k) l)) b diag resc d cova neffa refl ;; kde_cdf K grid false false x)
  = (do K <- kde_init n data (WArr l) b diag resc d cova neffa refl ;; kde_cdf K grid false false x).
Proof. exact cdf_weights. Qed.
Print Assumptions C152_weights.

(** ... and whole weights are repetitions, if the covariance is given. *)
Theorem C152_repeats : forall n data ks d C b diag resc neffa refl grid x, length ks = length data -> ((exists e, neffa = Some e) \/ (exists h, b = BwAtom (BNum h))) ->
  (do K <- kde_init n (flat_map (fun dk => repeat (fst dk) (snd dk)) (combine data ks)) WNone b diag resc d (Some C) neffa refl ;; kde_cdf K grid false false x)
  = (do K <- kde_init n data (WArr (map (fun k => Fin (INR k)) ks)) b diag resc d (Some C) neffa refl ;; kde_cdf K grid false false x).
Proof. exact cdf_repeats. Qed.
Print Assumptions C152_repeats.

(** Two data in two units, a grid of three values: a number. *)
Example C152_example : exists K K' v, kde_init 1 (pair_data 0 1) WNone (BwAtom (BNum 1)) false None Gaussian None None None = Ok K
  /\ kde_init 1 (map (aff (fun _ => 3) (fun _ => 2)) (pair_data 0 1)) WNone (BwAtom (BNum 1)) false None Gaussian None None None = Ok K'
  /\ two_values [[0; 1; 3]] /\ kde_cdf K [[0; 1; 3]] false false [2] = Ok (Fin v) /\ 0 <= v <= 1
  /\ kde_cdf K' [[3 + 2 * 0; 3 + 2 * 1; 3 + 2 * 3]] false false [3 + 2 * 2] = Ok (Fin v).
Proof.
  destruct (pair_init 0 1 Gaussian) as [C [HK EC]]. pose proof (pair_built 0 1 Gaussian C HK ltac:(rewrite EC; lra)) as HB.
  assert (Hc : forall i : nat, 0 < (fun _ : nat => 2) i) by (intros; lra).
  pose proof (kde_init_aff 1 (pair_data 0 1) WNone (BwAtom (BNum 1)) false None Gaussian None None (fun _ => 3) (fun _ => 2) Hc) as HR. cbn [option_map] in HR. rewrite HK in HR.
  destruct (kde_init 1 (map (aff (fun _ => 3) (fun _ => 2)) (pair_data 0 1)) WNone (BwAtom (BNum 1)) false None Gaussian None None None) as [K'|] eqn:HK'; [clear HR|contradiction].
  assert (HG : is_grid [[0; 1; 3]]).
  { intros g [<-|[]]. split; [cbn; lia|]. intros i j Hij. cbn in Hij. destruct j as [|[|[|]]]; destruct i as [|[|[|]]]; cbn; try lia; lra. }
  assert (H2 : two_values [[0; 1; 3]]) by (intros g [<-|[]]; cbn; lia).
  destruct (cdf_gaussian 1 _ _ _ _ [[0; 1; 3]] (le_n 1) HB HG eq_refl) as [c [Hv [H01 _]]].
  exists (pair_kde 0 1 Gaussian C), K', (c [2]). split; [exact HK|]. split; [reflexivity|]. split; [exact H2|]. split; [apply Hv; reflexivity|].
  split; [apply H01; repeat constructor; cbn; lra|]. rewrite <- Hv by reflexivity.
  exact (cdf_units 1 (pair_data 0 1) WNone (BwAtom (BNum 1)) false None Gaussian None None (fun _ => 3) (fun _ => 2) _ K' [[0; 1; 3]] false false [2] Hc HK HK' eq_refl H2 eq_refl).
Qed.

(** The same data, given edges, for the theorem on moved data. *)
Example C152_moved_example : some_boundary 1 None /\ exists K K' a, kde_init 1 (pair_data 0 1) WNone (BwAtom (BNum 1)) false None Box None None None = Ok K
  /\ kde_init 1 (map (aff (fun _ => 3) (fun _ => 1)) (pair_data 0 1)) WNone (BwAtom (BNum 1)) false None Box None None None = Ok K'
  /\ (forall ppf, kde_extrema K ppf None = Some (Ok [(0 - a, 1 + a)])) /\ 0 - a < 1 + a
  /\ (forall sorter bw, kde_points sorter K bw [(0 - a, 1 + a)] (EdAll (EdVec [0; 1; 3])) = Ok [[0; 1; 3]]) /\ two_values [[0; 1; 3]].
Proof.
  split; [exact I|]. destruct pair_extrema as (K & a & HK & Ha & HE & HP).
  pose proof (kde_init_aff 1 (pair_data 0 1) WNone (BwAtom (BNum 1)) false None Box None None (fun _ => 3) (fun _ => 1) ltac:(intros; lra)) as HR. cbn [option_map] in HR. rewrite HK in HR.
  destruct (kde_init 1 (map (aff (fun _ => 3) (fun _ => 1)) (pair_data 0 1)) WNone (BwAtom (BNum 1)) false None Box None None None) as [K'|]; [clear HR|contradiction].
  exists K, K', a. split; [exact HK|]. split; [reflexivity|]. split; [exact HE|]. split; [lra|]. split; [exact HP|]. intros g [<-|[]]. cbn. lia.
Qed.
(** Whole weights and an order, for the last three. *)
Example C152_order_example : Permutation (combine (pair_data 0 1) [Fin 2; Fin 1]) (combine (pair_data 1 0) [Fin 1; Fin 2])
  /\ flat_map (fun dk : pt * nat => repeat (fst dk) (snd dk)) (combine (pair_data 0 1) [2; 1]%nat) = [pt1 0; pt1 0; pt1 1].
Proof. split; [apply perm_swap|reflexivity]. Qed.

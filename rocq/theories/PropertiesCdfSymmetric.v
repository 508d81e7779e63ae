(** C153: the cumulative distribution of mirrored and of symmetric data. *)
From Coq Require Import Permutation.
From Verif Require Import Base ModelLinAlg SpecLinAlg ModelKernels ModelKDE ModelExtrema ModelInterp ModelUtils ModelNd ModelGrid SpecUtils SpecKDE SpecNd SpecLinear SpecReflected SpecSymmetric SpecCdfUnits SpecCdfSymmetric
  ProofReflect1 ProofExamples ProofGrid3 ProofCdfSymmetric.
Open Scope R_scope.
Notation length := List.length.

(** * C153 *)
(** Mirrored data on the mirrored grid: one minus the value, inside and outside the grid (not a number and errors stay). *)
Theorem C153_mirror : forall v data w b resc d neffa g x, one_bandwidth b -> is_grid [g] ->
  (do K <- kde_init 1 (map (mirrored 0 v) data) w b false resc d None neffa None ;; kde_cdf K [mirror_grid v g] false false [flip v x])
  = complement (do K <- kde_init 1 data w b false resc d None neffa None ;; kde_cdf K [g] false false [x]).
Proof. exact cdf_mirror. Qed.
Print Assumptions C153_mirror.

(** Symmetric data on a symmetric grid. *)
Theorem C153_symmetric : forall v data w ws b resc d neffa M K g x, unchanged (mirrored 0 v) data ws -> one_bandwidth b -> weights_given w data ws ->
  kde_init 1 data w b false resc d None neffa None = Ok K -> kd_kernel K = Some (mkKernel d 1 M) -> symmetric 1 M -> posdef 1 M -> is_grid [g] -> mirror_grid v g = g ->
  kde_cdf K [g] false false [flip v x] = complement (kde_cdf K [g] false false [x]).
Proof. exact cdf_symmetric. Qed.
Print Assumptions C153_symmetric.

(** At the centre it is one half. *)
Theorem C153_centre : forall v data w ws b resc d neffa M K g p, unchanged (mirrored 0 v) data ws -> one_bandwidth b -> weights_given w data ws ->
  kde_init 1 data w b false resc d None neffa None = Ok K -> kd_kernel K = Some (mkKernel d 1 M) -> symmetric 1 M -> posdef 1 M -> is_grid [g] -> mirror_grid v g = g ->
  kde_cdf K [g] false false [v] = Ok (Fin p) -> p = 1 / 2.
Proof. exact cdf_centre. Qed.
Print Assumptions C153_centre.

(** Exchanged parameters: the same value at the exchanged point of the exchanged grid. *)
Theorem C153_exchange : forall data w b resc d neffa gx gy x y, one_bandwidth b -> two_values [gx; gy] ->
  (do K <- kde_init 2 (map (exchange 0 1) data) w b false resc d None neffa None ;; kde_cdf K [gy; gx] false false [y; x])
  = (do K <- kde_init 2 data w b false resc d None neffa None ;; kde_cdf K [gx; gy] false false [x; y]).
Proof. exact cdf_exchange. Qed.
Print Assumptions C153_exchange.

(** Two data, a grid symmetric about their centre: one half there. *)
Example C153_example : exists K M, kde_init 1 [q00; q10] WNone BwNone false None Gaussian None None None = Ok K
  /\ unchanged (mirrored 0 (1 / 2)) [q00; q10] [1; 1] /\ one_bandwidth BwNone /\ weights_given WNone [q00; q10] [1; 1]
  /\ kd_kernel K = Some (mkKernel Gaussian 1 M) /\ symmetric 1 M /\ posdef 1 M /\ is_grid [[-1; 0; 1; 2]] /\ mirror_grid (1 / 2) [-1; 0; 1; 2] = [-1; 0; 1; 2]
  /\ kde_cdf K [[-1; 0; 1; 2]] false false [1 / 2] = Ok (Fin (1 / 2)).
Proof.
  destruct two_symmetric as (K & M & Hu & Hw & HK & Hk & HS & HP).
  assert (HG : is_grid [[-1; 0; 1; 2]]).
  { intros g [<-|[]]. split; [cbn; lia|]. intros i j Hij. cbn in Hij. destruct j as [|[|[|[|]]]]; destruct i as [|[|[|[|]]]]; cbn; try lia; lra. }
  assert (Hb : one_bandwidth BwNone) by (left; reflexivity).
  assert (Eg : mirror_grid (1 / 2) [-1; 0; 1; 2] = [-1; 0; 1; 2]) by (unfold mirror_grid, flip; cbn [map rev app]; repeat f_equal; lra).
  exists K, M. repeat (split; [assumption|]).
  assert (HB : built_kde 1 [q00; q10] [1; 1] Gaussian M None K) by (split; [exists WNone, BwNone, false, None, None, None; split; assumption|split; [exact Hk|split; assumption]]).
  destruct (cdf_gaussian 1 _ _ _ _ [[-1; 0; 1; 2]] (le_n 1) HB HG eq_refl) as [c [Hv _]].
  rewrite Hv by reflexivity. do 2 f_equal. exact (cdf_centre (1 / 2) _ _ _ _ _ _ _ M _ _ (c [1 / 2]) Hu Hb Hw HK Hk HS HP HG Eg (Hv [1 / 2] eq_refl)).
Qed.
(** Three data with two parameters, for the exchange: numbers. *)
Example C153_exchange_example : one_bandwidth BwNone /\ two_values [[0; 1]; [0; 2; 3]]
  /\ exists v, (do K <- kde_init 2 (map (exchange 0 1) data2) WNone BwNone false None Gaussian None None None ;; kde_cdf K [[0; 2; 3]; [0; 1]] false false [1; / 2]) = Ok (Fin v) /\ 0 <= v <= 1.
Proof.
  assert (H2 : two_values [[0; 1]; [0; 2; 3]]) by (intros g [<-|[<-|[]]]; cbn; lia). assert (Hb : one_bandwidth BwNone) by (left; reflexivity).
  split; [exact Hb|]. split; [exact H2|]. destruct (data2_ok_none Gaussian None) as (K & M & N & HK & Hk & HS & HP & _).
  assert (HB : built_kde 2 data2 [1; 1; 1] Gaussian M None K) by (split; [exists WNone, BwNone, false, None, None, None; split; [left; split; reflexivity|exact HK]|split; [exact Hk|split; assumption]]).
  assert (HG : is_grid [[0; 1]; [0; 2; 3]]).
  { intros g [<-|[<-|[]]]; (split; [cbn; lia|]); intros i j Hij; cbn in Hij; destruct j as [|[|[|]]]; destruct i as [|[|[|]]]; cbn; try lia; lra. }
  destruct (cdf_gaussian 2 _ _ _ _ [[0; 1]; [0; 2; 3]] ltac:(lia) HB HG eq_refl) as [c [Hv [H01 _]]]. exists (c [/ 2; 1]).
  split; [|apply H01; repeat constructor; cbn; lra]. rewrite (cdf_exchange data2 WNone BwNone None Gaussian None [0; 1] [0; 2; 3] (/ 2) 1 Hb H2), HK. cbn [bind]. apply Hv. reflexivity.
Qed.

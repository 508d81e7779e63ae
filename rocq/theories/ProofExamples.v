(** Concrete constructions used as non-trivial cases beside the property theorems. *)
From Coquelicot Require Import Coquelicot.
From Coq Require Import Permutation FunctionalExtensionality String.
From Verif Require Import Base ModelLinAlg SpecLinAlg ProofLinAlg SpecIntegral ProofIntegral
  ModelKernels SpecKernels ProofKernels ModelKDE SpecKDE ProofDensity ProofAffine ProofReflect1
  ProofMarginal ProofKDE ProofTop.
Open Scope R_scope.

Lemma weights_ok w data ws : weights_given w data ws -> length ws = length data ->
  (forall v, In v ws -> 0 <= v) -> (exists v, In v ws /\ v <> 0) ->
  exists ow, check_weights (length data) w = Ok ow.
Proof.
  intros [[-> ->]| ->] Hl Hnn [v [Hv Hne]]; [exists None; reflexivity|].
  destruct (check_weights_iff (length data) (map Fin ws)) as [H _]. destruct H as [l [E _]]; [|eauto].
  split; [rewrite map_length; exact Hl|split].
  - intros x Hx. apply in_map_iff in Hx. destruct Hx as [r [<- Hr]]. exists r. split; [reflexivity|apply Hnn, Hr].
  - exists (Fin v). split; [apply in_map, Hv|]. intros E. injection E as E. contradiction.
Qed.

(** Default construction from non-degenerate data. *)
Lemma default_ok n data w ws d refl : data <> [] -> weights_given w data ws -> length ws = length data ->
  (forall v, In v ws -> 0 <= v) -> (2 <= nnz ws)%nat -> ~ degenerate n data ws ->
  exists K M N, kde_init n data w BwNone false None d None None refl = Ok K
    /\ kd_kernel K = Some (mkKernel d n M) /\ symmetric n M /\ posdef n M /\ is_inverse n M N /\ symmetric n N
    /\ kd_data K = data /\ kd_ndim K = n /\ kd_reflect K = refl /\ wlist data (kd_weights K) = ws
    /\ kd_neff K = lsum ws * lsum ws / sumsq ws.
Proof.
  intros Hd Hg Hl Hnn Hnz Hdeg.
  assert (Hex : exists v, In v ws /\ v <> 0).
  { assert (H : nnz ws <> O) by lia. unfold nnz in H. destruct (filter _ ws) as [|v t] eqn:E; [contradiction H; reflexivity|].
    assert (Hin : In v (filter (fun x => negb (Reqb x 0)) ws)) by (rewrite E; left; reflexivity).
    apply filter_In in Hin. destruct Hin as [Hin Hb]. exists v. split; [exact Hin|].
    destruct (Reqb_spec v 0); [discriminate|assumption]. }
  destruct (weights_ok w data ws Hg Hl Hnn Hex) as [ow How].
  destruct (check_weights_given _ _ _ _ _ eq_refl Hg How) as [Ewl [_ [_ [Hnone [Hsome Hp]]]]]. specialize (Hp Hd).
  pose proof (proj2 (cov_fact_nnz data ws Hl Hnn Hp) Hnz) as Hcf.
  assert (EC : exists C, np_cov (wdata_of data ow) = Some C).
  { unfold wdata_of. rewrite Ewl. unfold np_cov. destruct (Rleb_spec (cov_fact (combine data ws)) 0); [lra|eauto]. }
  destruct EC as [C EC]. set (neff := neff_of (length data) ow).
  set (M := kernel_matrix C (fun _ _ => scott neff n)).
  assert (HK : kde_init n data w BwNone false None d None None refl
     = Ok (mkKDE n data ow neff (Some (mkKernel d n M)) refl)).
  { unfold kde_init. destruct (Nat.eqb_spec (length data) 0) as [E|_]; [destruct data; [contradiction Hd; reflexivity|discriminate]|].
    rewrite How. cbn [bind]. rewrite EC. reflexivity. }
  pose proof (np_cov_sym n _ _ EC) as HCs.
  assert (HMs : symmetric n M).
  { intros i j Hi Hj. unfold M, kernel_matrix. rewrite (HCs i j Hi Hj). reflexivity. }
  assert (HMp : posdef n M).
  { unfold M, kernel_matrix. apply posdef_scale_const; [pose proof (proj1 (scott_facts n) neff); nra|].
    unfold wdata_of in EC. rewrite Ewl in EC. apply (np_cov_posdef n data ws C Hl Hnn Hp EC). exact Hdeg. }
  destruct (kernel_density_plain d n M [] None HMs HMp) as [N [W [HN [_ [HsN [Hinv _]]]]]]; [discriminate|].
  eexists. exists M, N. split; [exact HK|]. cbn [kd_kernel kd_data kd_ndim kd_reflect kd_weights kd_neff].
  repeat (split; [first [reflexivity|assumption]|]).
  unfold neff, neff_of. destruct ow as [l|].
  - rewrite (Hsome l eq_refl). f_equal. ring.
  - specialize (Hnone eq_refl). cbn [wlist] in Ewl. change (map (fun _ => 1) data) with (ones data) in Ewl. rewrite <- Ewl, lsum_ones.
    assert (Eq : sumsq (ones data) = INR (length data)).
    { unfold sumsq, ones. rewrite sumf_map. rewrite sumf_const. ring. }
    rewrite Eq. field. apply not_0_INR. destruct data; [contradiction Hd; reflexivity|discriminate].
Qed.

(** Three points in the plane. *)
Definition q00 : pt := fun _ => 0.
Definition q10 : pt := fun i => match i with O => 1 | _ => 0 end.
Definition q01 : pt := fun i => match i with 1%nat => 1 | _ => 0 end.
Definition data2 : list pt := [q00; q10; q01].

Lemma nnz_pos l : (forall v, In v l -> 0 < v) -> nnz l = length l.
Proof.
  induction l as [|a l IH]; intros H; [reflexivity|]. rewrite nnz_cons.
  destruct (Reqb_spec a 0) as [E|]; [specialize (H a (or_introl eq_refl)); lra|].
  rewrite IH by (intros; apply H; right; assumption). reflexivity.
Qed.

Lemma data2_nondeg ws : length ws = 3%nat -> (forall v, In v ws -> 0 < v) -> ~ degenerate 2 data2 ws.
Proof.
  destruct ws as [|a [|b [|c [|e ws]]]]; try discriminate. intros _ Hp [v [k [[i [Hi Hv]] Hc]]].
  assert (Ha : a <> 0) by (specialize (Hp a (or_introl eq_refl)); lra).
  assert (Hb : b <> 0) by (specialize (Hp b (or_intror (or_introl eq_refl))); lra).
  assert (Hc' : c <> 0) by (specialize (Hp c (or_intror (or_intror (or_introl eq_refl)))); lra).
  pose proof (Hc q00 a (or_introl eq_refl) Ha) as E0.
  pose proof (Hc q10 b (or_intror (or_introl eq_refl)) Hb) as E1.
  pose proof (Hc q01 c (or_intror (or_intror (or_introl eq_refl))) Hc') as E2.
  unfold q00, q10, q01 in *. cbn [rsum] in E0, E1, E2.
  destruct i as [|[|i]]; [apply Hv; lra|apply Hv; lra|lia].
Qed.

Lemma data2_ok w ws d refl : weights_given w data2 ws -> length ws = 3%nat -> (forall v, In v ws -> 0 < v) ->
  exists K M N, kde_init 2 data2 w BwNone false None d None None refl = Ok K
    /\ kd_kernel K = Some (mkKernel d 2 M) /\ symmetric 2 M /\ posdef 2 M /\ is_inverse 2 M N /\ symmetric 2 N
    /\ kd_data K = data2 /\ kd_ndim K = 2%nat /\ kd_reflect K = refl /\ wlist data2 (kd_weights K) = ws
    /\ kd_neff K = lsum ws * lsum ws / sumsq ws.
Proof.
  intros Hg Hl Hp. apply default_ok; auto.
  - discriminate.
  - intros v Hv. specialize (Hp v Hv). lra.
  - rewrite nnz_pos by exact Hp. rewrite Hl. lia.
  - apply data2_nondeg; assumption.
Qed.
Lemma data2_ok_none d refl : exists K M N, kde_init 2 data2 WNone BwNone false None d None None refl = Ok K
    /\ kd_kernel K = Some (mkKernel d 2 M) /\ symmetric 2 M /\ posdef 2 M /\ is_inverse 2 M N /\ symmetric 2 N
    /\ kd_data K = data2 /\ kd_ndim K = 2%nat /\ kd_reflect K = refl /\ wlist data2 (kd_weights K) = [1; 1; 1]
    /\ kd_neff K = 3 * 3 / 3.
Proof.
  destruct (data2_ok WNone [1; 1; 1] d refl) as [K [M [N H]]].
  - left. split; reflexivity.
  - reflexivity.
  - intros v [<-|[<-|[<-|[]]]]; lra.
  - exists K, M, N. destruct H as (? & ? & ? & ? & ? & ? & ? & ? & ? & ? & ->).
    repeat (split; [first [reflexivity|assumption]|]). unfold sumsq, sumf. cbn [map lsum]. field.
Qed.

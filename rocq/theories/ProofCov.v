(** Proofs about add_cov and rem_cov. *)
From Verif Require Import Base ModelLinAlg SpecLinAlg ProofLinAlg ModelKernels ModelKDE ModelInterp ModelResample SpecResample ProofResample ModelUtils ProofUtils2.
Open Scope R_scope.
Notation length := List.length.

Lemma minv_upper n M : (forall i j, (j < i)%nat -> (i < n)%nat -> M i j = 0) -> (forall i, (i < n)%nat -> M i i <> 0) -> exists N, minv n M = Some N.
Proof.
  revert M. induction n as [|n IH]; intros M Hz Hd; [eexists; reflexivity|]. cbn [minv].
  destruct (Req_EM_T (M n n) 0) as [E|_]; [exfalso; apply (Hd n); [lia|exact E]|].
  destruct (IH (schur n M)) as [N E].
  - intros i j Hij Hi. unfold schur. rewrite (Hz i j), (Hz n j) by lia. unfold Rdiv. ring.
  - intros i Hi. unfold schur. rewrite (Hz n i) by lia. unfold Rdiv. rewrite Rmult_0_r, Rmult_0_l, Rminus_0_r. apply Hd. lia.
  - rewrite E. eexists. reflexivity.
Qed.

Lemma chol_inv n C U : chol n C = Some U -> exists V, minv n U = Some V /\ is_inverse n U V.
Proof.
  intros H. destruct (chol_sound n C U H) as [Hz Hp _]. destruct (minv_upper n U) as [V E].
  - intros i j Hij _. apply Hz. left. exact Hij.
  - intros i Hi. pose proof (Hp i Hi). lra.
  - exists V. split; [exact E|apply minv_sound, E].
Qed.

(** Colouring with U then with an inverse V. *)
Lemma color_color n A B z i : (i < n)%nat -> color n B (color n A z) i = rsum n (fun l => z l * rsum n (fun k => A l k * B k i)).
Proof.
  intros Hi. unfold color.
  transitivity (rsum n (fun k => rsum n (fun l => z l * (A l k * B k i)))).
  - apply rsum_ext. intros k Hk. rewrite <- rsum_scal. apply rsum_ext. intros l Hl. ring.
  - rewrite rsum_swap. apply rsum_ext. intros l Hl. apply rsum_scal.
Qed.

Theorem whiten_inverts n C data : symmetric n C -> posdef n C ->
  exists out back, add_cov n C data = Ok out /\ length out = length data
    /\ rem_cov n C out = Ok back /\ length back = length data
    /\ forall j i, (j < length data)%nat -> (i < n)%nat -> nth j back pt0 i = nth j data pt0 i.
Proof.
  intros Hs Hp. destruct (chol_posdef n C Hs Hp) as [U [HU _]]. destruct (chol_inv n C U HU) as [V [HV HI]].
  unfold add_cov, rem_cov. rewrite HU, HV. do 2 eexists. split; [reflexivity|]. split; [apply map_length|]. split; [reflexivity|].
  rewrite !map_length. split; [reflexivity|]. intros j i Hj Hi. rewrite map_map. set (g := fun x => color n V (color n U x)).
  rewrite (nth_indep _ pt0 (g pt0)) by (rewrite map_length; exact Hj). rewrite map_nth. unfold g.
  rewrite color_color by exact Hi. rewrite <- (rsum_ident_r n (nth j data pt0) i Hi). apply rsum_ext. intros l Hl. f_equal.
  apply (HI l i Hl Hi).
Qed.
Theorem color_inverts n C data : symmetric n C -> posdef n C ->
  exists out back, rem_cov n C data = Ok out /\ length out = length data
    /\ add_cov n C out = Ok back /\ length back = length data
    /\ forall j i, (j < length data)%nat -> (i < n)%nat -> nth j back pt0 i = nth j data pt0 i.
Proof.
  intros Hs Hp. destruct (chol_posdef n C Hs Hp) as [U [HU _]]. destruct (chol_inv n C U HU) as [V [HV HI]].
  unfold add_cov, rem_cov. rewrite HU, HV. do 2 eexists. split; [reflexivity|]. split; [apply map_length|]. split; [reflexivity|].
  rewrite !map_length. split; [reflexivity|]. intros j i Hj Hi. rewrite map_map. set (g := fun x => color n U (color n V x)).
  rewrite (nth_indep _ pt0 (g pt0)) by (rewrite map_length; exact Hj). rewrite map_nth. unfold g.
  rewrite color_color by exact Hi. rewrite <- (rsum_ident_r n (nth j data pt0) i Hi). apply rsum_ext. intros l Hl. f_equal.
  apply (HI l i Hl Hi).
Qed.

Theorem cov_not_posdef n C data : symmetric n C -> ~ posdef n C -> add_cov n C data = Err LinAlgError /\ rem_cov n C data = Err LinAlgError.
Proof.
  intros Hs Hn. unfold add_cov, rem_cov. destruct (chol n C) as [U|] eqn:E; [|split; reflexivity].
  exfalso. apply Hn. intros x Hx. apply (chol_quad_pos n C U x E Hs Hx).
Qed.

(** Covariances of coloured data (bilinearity). *)
Definition colored (n : nat) (U : mat) (wd : list (pt * R)) : list (pt * R) := map (fun dw : pt * R => (color n U (fst dw), snd dw)) wd.

Lemma colored_fact n U wd : cov_fact (colored n U wd) = cov_fact wd /\ sumf snd (colored n U wd) = sumf snd wd.
Proof. unfold cov_fact, colored. rewrite !sumf_map. cbn [snd]. split; reflexivity. Qed.
Lemma colored_mean n U wd i : wmean (colored n U wd) i = rsum n (fun l => U l i * wmean wd l).
Proof.
  unfold wmean. rewrite (proj2 (colored_fact n U wd)). unfold colored. rewrite sumf_map. cbn [fst snd]. unfold color.
  rewrite (sumf_ext _ (fun dw : pt * R => rsum n (fun l => U l i * (snd dw * fst dw l)))).
  2:{ intros dw _. rewrite <- rsum_scal. apply rsum_ext. intros l _. ring. }
  rewrite sumf_rsum_swap. unfold Rdiv. rewrite <- rsum_scal_r. apply rsum_ext. intros l _. rewrite sumf_scal. ring.
Qed.
Lemma colored_cov n U wd S : np_cov wd = Some S ->
  exists S', np_cov (colored n U wd) = Some S' /\ forall i j, S' i j = rsum n (fun k => rsum n (fun l => U k i * S k l * U l j)).
Proof.
  intros H. unfold np_cov in *. rewrite (proj1 (colored_fact n U wd)). destruct (Rleb (cov_fact wd) 0); [discriminate H|]. injection H as <-.
  eexists. split; [reflexivity|]. intros i j. cbv beta. rewrite !colored_mean. unfold colored. rewrite sumf_map. cbn [fst snd]. unfold color.
  set (m := wmean wd).
  rewrite (sumf_ext _ (fun dw : pt * R => rsum n (fun k => rsum n (fun l => U k i * (snd dw * (fst dw k - m k) * (fst dw l - m l)) * U l j)))).
  2:{ intros dw _. rewrite <- !rsum_minus.
      rewrite (rsum_ext n (fun l => U l i * fst dw l - U l i * m l) (fun l => U l i * (fst dw l - m l))) by (intros; ring).
      rewrite (rsum_ext n (fun l => U l j * fst dw l - U l j * m l) (fun l => U l j * (fst dw l - m l))) by (intros; ring).
      rewrite Rmult_assoc, <- rsum_scal_r, <- rsum_scal. apply rsum_ext. intros k _. rewrite <- rsum_scal, <- rsum_scal. apply rsum_ext. intros l _. ring. }
  rewrite sumf_rsum_swap. unfold Rdiv. rewrite <- rsum_scal_r. apply rsum_ext. intros k _.
  rewrite sumf_rsum_swap, <- rsum_scal_r. apply rsum_ext. intros l _. rewrite sumf_scal_r, sumf_scal. ring.
Qed.

(** Unit covariance becomes C. *)
Theorem add_cov_unit n C wd S : symmetric n C -> posdef n C -> np_cov wd = Some S -> agree n S ident ->
  exists out S', add_cov n C (map fst wd) = Ok out /\ np_cov (combine out (map snd wd)) = Some S' /\ agree n S' C.
Proof.
  intros Hs Hp HS HI. destruct (chol_posdef n C Hs Hp) as [U [HU _]]. unfold add_cov. rewrite HU.
  destruct (colored_cov n U wd S HS) as [S' [E HS']]. exists (map (color n U) (map fst wd)), S'. split; [reflexivity|].
  assert (EC : combine (map (color n U) (map fst wd)) (map snd wd) = colored n U wd).
  { unfold colored. clear. induction wd as [|[x w] wd IH]; [reflexivity|]. cbn. f_equal. exact IH. }
  rewrite EC. split; [exact E|]. intros i j Hi Hj. rewrite HS', <- (chol_full n C U i j HU Hs Hi Hj).
  apply rsum_ext. intros k Hk. rewrite (rsum_ext n _ (fun l => ident k l * (U k i * U l j))).
  - rewrite (rsum_ident_l n (fun l => U k i * U l j) k Hk). reflexivity.
  - intros l Hl. rewrite HI by assumption. ring.
Qed.

(** Whitening data by their own covariance gives unit covariance. *)
Theorem rem_cov_unit n wd C : np_cov wd = Some C -> posdef n C ->
  exists out S', rem_cov n C (map fst wd) = Ok out /\ np_cov (combine out (map snd wd)) = Some S' /\ agree n S' ident.
Proof.
  intros HC Hp.
  assert (Hs : symmetric n C).
  { intros i j _ _. unfold np_cov in HC. destruct (Rleb _ _); [discriminate HC|]. injection HC as <-. cbv beta. f_equal. apply sumf_ext. intros; ring. }
  destruct (chol_posdef n C Hs Hp) as [U [HU _]]. destruct (chol_inv n C U HU) as [V [HV HI]].
  unfold rem_cov. rewrite HU, HV. destruct (colored_cov n V wd C HC) as [S' [E HS']]. exists (map (color n V) (map fst wd)), S'. split; [reflexivity|].
  assert (EC : combine (map (color n V) (map fst wd)) (map snd wd) = colored n V wd).
  { unfold colored. clear. induction wd as [|[x w] wd IH]; [reflexivity|]. cbn. f_equal. exact IH. }
  rewrite EC. split; [exact E|]. intros i j Hi Hj. rewrite HS'.
  transitivity (rsum n (fun q => rsum n (fun k => U q k * V k i) * rsum n (fun l => U q l * V l j))).
  - transitivity (rsum n (fun k => rsum n (fun l => rsum n (fun q => V k i * (U q k * U q l) * V l j)))).
    + apply rsum_ext. intros k Hk. apply rsum_ext. intros l Hl. rewrite <- (chol_full n C U k l HU Hs Hk Hl).
      rewrite <- rsum_scal, <- rsum_scal_r. apply rsum_ext. intros; ring.
    + transitivity (rsum n (fun k => rsum n (fun q => rsum n (fun l => V k i * (U q k * U q l) * V l j)))).
      { apply rsum_ext. intros k _. apply rsum_swap. }
      rewrite rsum_swap. apply rsum_ext. intros q _. rewrite <- rsum_scal_r. apply rsum_ext. intros k _. rewrite <- rsum_scal. apply rsum_ext. intros l _. ring.
  - rewrite (rsum_ext n _ (fun q => ident q i * ident q j)) by (intros q Hq; rewrite (proj1 (HI q i Hq Hi)), (proj1 (HI q j Hq Hj)); reflexivity).
    rewrite (rsum_ext n _ (fun q => ident j q * ident q i)).
    + rewrite (rsum_ident_l n (fun q => ident q i) j Hj). unfold ident. rewrite Nat.eqb_sym. reflexivity.
    + intros q _. unfold ident. rewrite (Nat.eqb_sym j q). ring.
Qed.

(** Without a covariance argument: only one- and two-dimensional data can be whitened. *)
Theorem rem_cov_default_dims n data : (3 <= n)%nat -> rem_cov_default n data = Err ValueError \/ rem_cov_default n data = Err TypeError.
Proof. intros H. destruct n as [|[|[|[|[|n]]]]]; try lia; auto. Qed.
Theorem rem_cov_default_low n data C : (n = 1%nat \/ n = 2%nat) -> np_cov (combine data (map (fun _ => 1) data)) = Some C ->
  rem_cov_default n data = rem_cov n C data.
Proof. intros [->| ->] H; cbn [rem_cov_default]; rewrite H; reflexivity. Qed.

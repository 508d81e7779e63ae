(** The noise of the box kernel in several dimensions. *)
From Coquelicot Require Import Coquelicot.
From Coq Require Import FunctionalExtensionality.
From Verif Require Import Base ModelLinAlg SpecLinAlg ProofLinAlg ModelKernels SpecIntegral SpecMoments ProofIntegral ProofWallis ProofKernels ProofMoments ModelInterp ModelResample SpecNoise ProofNoise ProofNoise2 ProofNoise3.
Open Scope R_scope.

(** * The n-th root of a uniform number *)
Definition root (n : nat) (u : R) : R := if Rle_dec u 0 then 0 else Rpower u (1 / INR n).
Lemma root_is n u : 0 <= u -> nth_root u n = root n u.
Proof. intros H. unfold nth_root, root. destruct (Req_EM_T u 0), (Rle_dec u 0); try reflexivity; try lra. Qed.
Lemma root_pow n t : (1 <= n)%nat -> 0 <= t -> root n (t ^ n) = t.
Proof.
  intros Hn Ht. assert (HN : INR n <> 0) by (apply not_0_INR; lia). unfold root. destruct (Rle_dec (t ^ n) 0) as [H|H].
  - destruct Ht as [Ht|<-]; [|reflexivity]. pose proof (pow_lt t n Ht). lra.
  - destruct Ht as [Ht|<-]; [|exfalso; apply H; rewrite pow_ne_zero by lia; lra].
    rewrite <- Rpower_pow by exact Ht. rewrite Rpower_mult. replace (INR n * (1 / INR n)) with 1 by (field; exact HN). apply Rpower_1, Ht.
Qed.
Lemma root_cont n (u : R) : (1 <= n)%nat -> continuous (root n) u.
Proof.
  intros Hn. assert (HN : 0 < INR n) by (apply lt_0_INR; lia). destruct (Rlt_dec 0 u) as [Hu|Hu].
  - apply (continuous_ext_loc (root n) (fun v => Rpower v (1 / INR n)) u).
    + exists (mkposreal u Hu). intros v Hv. unfold root. destruct (Rle_dec v 0) as [Hv0|]; [|reflexivity]. exfalso.
      change (Rabs (v - u) < u) in Hv. unfold Rabs in Hv. destruct (Rcase_abs (v - u)); lra.
    + apply (cont_of_derive _ (1 / INR n * Rpower u (1 / INR n - 1))). apply is_derive_Reals. apply derivable_pt_lim_power, Hu.
  - apply Rnot_lt_le in Hu. apply (proj2 (filterlim_locally (F := locally u) (root n) (root n u))). intros eps.
    destruct Hu as [Hu| ->].
    + exists (mkposreal (- u) ltac:(lra)). intros v Hv. change (Rabs (v - u) < - u) in Hv. change (Rabs (root n v - root n u) < eps).
      unfold root. destruct (Rle_dec v 0); [|unfold Rabs in Hv; destruct (Rcase_abs (v - u)); lra]. destruct (Rle_dec u 0); [|lra].
      rewrite Rminus_eq_0, Rabs_R0. apply cond_pos.
    + assert (Hd : 0 < Rpower eps (INR n)) by apply exp_pos. exists (mkposreal _ Hd). intros v Hv. change (Rabs (v - 0) < Rpower eps (INR n)) in Hv.
      change (Rabs (root n v - root n 0) < eps). unfold root. destruct (Rle_dec 0 0); [|lra]. rewrite Rminus_0_r in *.
      destruct (Rle_dec v 0) as [|Hv0]; [rewrite Rabs_R0; apply cond_pos|]. rewrite Rabs_pos_eq in Hv by lra.
      rewrite Rabs_pos_eq by (left; apply exp_pos).
      replace (pos eps) with (Rpower (Rpower eps (INR n)) (1 / INR n)).
      * apply Rlt_Rpower_l; [unfold Rdiv; rewrite Rmult_1_l; apply Rinv_0_lt_compat, HN|]. lra.
      * rewrite Rpower_mult. replace (INR n * (1 / INR n)) with 1 by (field; lra). apply Rpower_1, cond_pos.
Qed.
Lemma root_mean n p : (1 <= n)%nat -> is_RInt (fun u => nth_root u n ^ p) 0 1 (INR n / (INR n + INR p)).
Proof.
  intros Hn. assert (HN : 0 < INR n) by (apply lt_0_INR; lia). pose proof (pos_INR p) as Hp.
  assert (Cp : forall u, continuous (fun u => root n u ^ p) u).
  { intros u. induction p as [|q IH]; [apply cont_c|]. cbn [pow]. apply cont_mult; [apply root_cont, Hn|apply IH, pos_INR]. }
  set (I := RInt (fun u => root n u ^ p) 0 1).
  assert (HI : is_RInt (fun u => root n u ^ p) 0 1 I).
  { apply (RInt_correct (V := R_CompleteNormedModule)). apply (ex_RInt_continuous (V := R_CompleteNormedModule)). intros; apply Cp. }
  assert (EI : I = INR n / (INR n + INR p)).
  { pose proof (is_RInt_comp (V := R_CompleteNormedModule) (fun u => root n u ^ p) (fun t => t ^ n) (fun t => INR n * t ^ pred n) 0 1) as HC.
    cbv beta in HC. rewrite pow1, pow_ne_zero in HC by lia. specialize (HC (fun x _ => Cp _)).
    assert (HD : is_RInt (fun y => scal (INR n * y ^ pred n) (root n (y ^ n) ^ p)) 0 1 I).
    { apply HC. intros x _. split.
      - auto_derive; [exact Logic.I|]. ring.
      - apply cont_mult; [apply cont_c|]. apply (ex_derive_continuous (V := R_NormedModule)). auto_derive. exact Logic.I. }
    clear HC. set (F := fun t => INR n / (INR n + INR p) * t ^ (n + p)).
    assert (HF : is_RInt (fun t => INR n * t ^ (n + p - 1)) 0 1 (F 1 - F 0)).
    { apply (ftc F).
      - intros x. unfold F. auto_derive; [exact Logic.I|]. replace (Init.Nat.pred (n + p)) with (n + p - 1)%nat by lia. rewrite plus_INR. field. lra.
      - intros x. apply cont_mult; [apply cont_c|]. apply (ex_derive_continuous (V := R_NormedModule)). auto_derive. exact Logic.I. }
    replace (F 1 - F 0) with (INR n / (INR n + INR p)) in HF.
    2:{ unfold F. rewrite pow1, pow_ne_zero by lia. ring. }
    refine (is_RInt_eq _ _ _ _ _ HD _). apply is_RInt_ext with (2 := HF). intros t Ht. rewrite Rmin_left, Rmax_right in Ht by lra.
    change (INR n * t ^ (n + p - 1) = INR n * t ^ pred n * root n (t ^ n) ^ p). rewrite root_pow by (lia || lra).
    rewrite Rmult_assoc, <- pow_add. f_equal. f_equal. lia. }
  rewrite <- EI. apply is_RInt_ext with (2 := HI). intros u Hu. rewrite Rmin_left, Rmax_right in Hu by lra. rewrite root_is by lra. reflexivity.
Qed.

(** * The squares of lengths *)
Lemma box_sample_several n r u : (2 <= n)%nat -> dist_sample Box n (with_unif r u) = fun k => nth_root (u k) n * r_norm r k / sqrt (norm2 n (r_norm r)).
Proof. intros Hn. unfold dist_sample. destruct (Nat.eqb_spec n 1); [lia|]. reflexivity. Qed.
Lemma box_spread : forall n r base, (2 <= n)%nat -> (exists k, (k < n)%nat /\ r_norm r k <> 0) ->
  uniform_mean n 0 1 (fun u => norm2 n (dist_sample Box n (with_unif r u))) (INR n / (INR n + 2))
  /\ is_tintN n (fun x => norm2 n x * dist_evaluate Box n x) base (INR n / (INR n + 2)).
Proof.
  intros n r base Hn [k [Hk Hz]]. pose proof (norm2_pos n _ k Hk Hz) as Hp. split.
  - pose proof (root_mean n 2 ltac:(lia)) as H. change (INR 2) with 2 in H.
    assert (H2 : is_RInt (fun u => nth_root u n * nth_root u n) 0 1 (INR n / (INR n + 2))) by (apply is_RInt_ext with (2 := H); intros u _; cbn [pow]; change (nth_root u n * (nth_root u n * 1) = nth_root u n * nth_root u n); ring).
    apply uniform_mean_ext with (2 := mean_norm2 n (r_norm r) (fun u => nth_root u n) _ Hp H2). intros u _. rewrite box_sample_several by exact Hn. reflexivity.
  - apply (kernel_norm2 Box n base). lia.
Qed.
Lemma rsum_sq_expand n (a : nat -> R) : rsum n a * rsum n a = rsum n (fun i => rsum n (fun j => a i * a j)).
Proof. rewrite <- rsum_scal_r. apply rsum_ext. intros i _. rewrite rsum_scal. reflexivity. Qed.
Lemma box_four n r : (2 <= n)%nat -> 0 < norm2 n (r_norm r) ->
  uniform_mean n 0 1 (fun u => norm2 n (dist_sample Box n (with_unif r u)) * norm2 n (dist_sample Box n (with_unif r u)))
    (INR n / (INR n + 4) - (INR n / (INR n + 4) - INR n / (INR n + 2) * (INR n / (INR n + 2))) * (1 - rsum n (fun k => share n (r_norm r) k * share n (r_norm r) k))).
Proof.
  intros Hn Hp. set (c := share n (r_norm r)). set (m4 := INR n / (INR n + 4)). set (m2 := INR n / (INR n + 2)). set (q := fun t => nth_root t n * nth_root t n).
  assert (H2 : is_RInt q 0 1 ((1 - 0) * m2)).
  { replace ((1 - 0) * m2) with m2 by ring. pose proof (root_mean n 2 ltac:(lia)) as H. change (INR 2) with 2 in H.
    apply is_RInt_ext with (2 := H). intros u _. cbn [pow]. change (nth_root u n * (nth_root u n * 1) = nth_root u n * nth_root u n). ring. }
  assert (H4 : is_RInt (fun t => q t * q t) 0 1 ((1 - 0) * m4)).
  { replace ((1 - 0) * m4) with m4 by ring. pose proof (root_mean n 4 ltac:(lia)) as H. replace (INR 4) with 4 in H by (cbn; ring).
    apply is_RInt_ext with (2 := H). intros u _. cbn [pow]. unfold q. set (x := nth_root u n). change (x * (x * (x * (x * 1))) = x * x * (x * x)). ring. }
  assert (A : uniform_mean n 0 1 (fun u => rsum n (fun i => rsum n (fun j => c i * q (u i) * (c j * q (u j)))))
                (rsum n (fun i => rsum n (fun j => c i * c j * (if Nat.eqb j i then m4 else m2 * m2))))).
  { apply (uniform_mean_rsum n 0 1 n (fun i u => rsum n (fun j => c i * q (u i) * (c j * q (u j)))) (fun i => rsum n (fun j => c i * c j * (if Nat.eqb j i then m4 else m2 * m2)))). intros i Hi.
    apply (uniform_mean_rsum n 0 1 n (fun j u => c i * q (u i) * (c j * q (u j))) (fun j => c i * c j * (if Nat.eqb j i then m4 else m2 * m2))). intros j Hj.
    apply uniform_mean_ext with (fun u => c i * c j * (q (u i) * q (u j))); [intros; ring|]. apply uniform_mean_scal.
    destruct (Nat.eqb_spec j i) as [->|Hij].
    - apply (mean_one n 0 1 i (fun t => q t * q t)); [lra|exact Hi|exact H4].
    - apply mean_two; [lra|exact Hi|exact Hj|lia|exact H2]. }
  replace (m4 - (m4 - m2 * m2) * (1 - rsum n (fun k => c k * c k))) with (rsum n (fun i => rsum n (fun j => c i * c j * (if Nat.eqb j i then m4 else m2 * m2)))).
  - apply uniform_mean_ext with (2 := A). intros u _. rewrite box_sample_several by exact Hn.
    rewrite (scaled_norm2 n (r_norm r) (fun k => nth_root (u k) n) Hp), rsum_sq_expand. reflexivity.
  - rewrite (rsum_ext n _ (fun i => m2 * m2 * c i + (m4 - m2 * m2) * (c i * c i))).
    + rewrite rsum_plus, !rsum_scal. unfold c at 1. rewrite share_sum by exact Hp. ring.
    + intros i Hi. rewrite (rsum_ext n _ (fun j => m2 * m2 * c i * c j + (if Nat.eqb j i then (m4 - m2 * m2) * c i * c j else 0))).
      * rewrite rsum_plus, rsum_scal, (rsum_delta n (fun j => (m4 - m2 * m2) * c i * c j) i Hi). unfold c at 2. rewrite share_sum by exact Hp. ring.
      * intros j _. destruct (Nat.eqb j i); ring.
Qed.
Lemma gap_pos n : (1 <= n)%nat -> 0 < INR n / (INR n + 4) - INR n / (INR n + 2) * (INR n / (INR n + 2)).
Proof.
  intros Hn. assert (HN : 0 < INR n) by (apply lt_0_INR; lia).
  replace (INR n / (INR n + 4) - INR n / (INR n + 2) * (INR n / (INR n + 2))) with (4 * INR n * / ((INR n + 4) * ((INR n + 2) * (INR n + 2)))) by (field; lra).
  apply Rmult_lt_0_compat; [lra|]. apply Rinv_0_lt_compat. nra.
Qed.
Lemma share_le1 n z k : 0 < norm2 n z -> (k < n)%nat -> share n z k <= 1.
Proof. intros Hp Hk. rewrite <- (share_sum n z Hp). apply rsum_ge_term; [intros; apply share_nonneg, Hp|exact Hk]. Qed.
Lemma share_squares n z i j : 0 < norm2 n z -> (i < n)%nat -> (j < n)%nat -> i <> j -> z i <> 0 -> z j <> 0 -> rsum n (fun k => share n z k * share n z k) < 1.
Proof.
  intros Hp Hi Hj Hij Zi Zj.
  assert (Pos : forall k, z k <> 0 -> 0 < share n z k).
  { intros k Hk. unfold share, Rdiv. apply Rmult_lt_0_compat; [destruct (Rdichotomy _ _ Hk); nra|apply Rinv_0_lt_compat, Hp]. }
  assert (Two : share n z i + share n z j <= 1).
  { rewrite <- (share_sum n z Hp). rewrite <- (rsum_delta n (share n z) i Hi), <- (rsum_delta n (share n z) j Hj), <- rsum_plus.
    apply rsum_le. intros k _. pose proof (share_nonneg n z k Hp). destruct (Nat.eqb_spec k i), (Nat.eqb_spec k j); subst; try (contradiction Hij; reflexivity); lra. }
  assert (H : share n z i * (1 - share n z i) <= rsum n (fun k => share n z k * (1 - share n z k))).
  { apply (rsum_ge_term n (fun k => share n z k * (1 - share n z k))); [|exact Hi]. intros k Hk. pose proof (share_nonneg n z k Hp). pose proof (share_le1 n z k Hp Hk). nra. }
  rewrite (rsum_ext n _ (fun k => share n z k - share n z k * share n z k)) in H by (intros; ring). rewrite rsum_minus, share_sum in H by exact Hp.
  pose proof (Pos i Zi). pose proof (Pos j Zj). nra.
Qed.
(** The fourth moment of the kernel. *)
Lemma box_kernel_four n base : (1 <= n)%nat -> is_tintN n (fun x => norm2 n x * norm2 n x * dist_evaluate Box n x) base (INR n / (INR n + 4)).
Proof.
  intros Hn. assert (HN : 0 < INR n) by (apply lt_0_INR; lia). pose proof (dist_norm_pos Box n Hn) as HD.
  assert (Hz : forall i j, (j < i)%nat -> ident i j = 0) by (intros; apply ident_neq; lia).
  assert (Hp : forall i, (i < n)%nat -> 0 < ident i i) by (intros; rewrite ident_refl; lra).
  assert (K : forall q, is_tintN n (fun x => kq q (norm2 n x)) base (rprod n (fun i => betaq (q + i)))).
  { intros q. pose proof (tintN_triangular kq betaq kq_step n ident q 0 (fun _ => 0) base Hz Hp) as H. rewrite kq_0, Rmult_1_r in H.
    rewrite (rprod_ext n _ (fun i => betaq (q + i))) in H by (intros; rewrite ident_refl; field).
    apply tintN_ext with (2 := H). intros x. f_equal. rewrite Rplus_0_l. unfold norm2. apply rsum_ext. intros k Hk. unfold mvec.
    rewrite (rsum_ident_l n x k Hk). ring. }
  assert (B : forall q, rprod n (fun i => betaq (S (S q) + i)) = (INR q + 2) / (INR q + INR n + 2) * rprod n (fun i => betaq (q + i))).
  { intros q. clear. pose proof (pos_INR q). induction n as [|m IH]; cbn [rprod].
    - cbn [INR]. field. lra.
    - rewrite IH. change (S (S q) + m)%nat with (S (S (q + m))). rewrite betaq_SS, plus_INR, S_INR. pose proof (pos_INR m). field. lra. }
  assert (D0 : dist_norm Box n = rprod n (fun i => betaq (0 + i))) by (apply dist_norm_finite; [exact Hn|reflexivity]).
  pose proof (K 0%nat) as K0. pose proof (K 2%nat) as K2. pose proof (K 4%nat) as K4. rewrite (B 2%nat), (B 0%nat) in K4. rewrite (B 0%nat) in K2. rewrite <- D0 in *.
  cbn [INR] in K2, K4.
  pose proof (tintN_plus n _ _ _ _ _ (tintN_plus n _ _ _ _ _ K0 (tintN_scal n (-2) _ _ _ K2)) K4) as H.
  apply (tintN_scal n (/ dist_norm Box n)) in H.
  match type of H with is_tintN _ _ _ ?v => replace (INR n / (INR n + 4)) with v by (field; lra) end.
  apply tintN_ext with (2 := H). intros x. unfold dist_evaluate. rewrite prof_kq by reflexivity. cbn [dq].
  assert (E : norm2 n x * norm2 n x * kq 0 (norm2 n x) = kq 0 (norm2 n x) + -2 * kq 2 (norm2 n x) + kq 4 (norm2 n x)).
  { destruct (Rle_dec (norm2 n x) 1) as [Hr|Hr].
    - rewrite (kq_SS 2), (kq_SS 0) by exact Hr. ring.
    - unfold kq. destruct (Rle_dec (norm2 n x) 1); [contradiction|]. ring. }
  rewrite <- E. field. lra.
Qed.
Lemma box_tails : forall n r base i j, (i < n)%nat -> (j < n)%nat -> i <> j -> r_norm r i <> 0 -> r_norm r j <> 0 ->
  exists v, uniform_mean n 0 1 (fun u => norm2 n (dist_sample Box n (with_unif r u)) * norm2 n (dist_sample Box n (with_unif r u))) v
  /\ is_tintN n (fun x => norm2 n x * norm2 n x * dist_evaluate Box n x) base (INR n / (INR n + 4)) /\ v < INR n / (INR n + 4).
Proof.
  intros n r base i j Hi Hj Hij Zi Zj. pose proof (norm2_pos n _ i Hi Zi) as Hp. assert (Hn : (2 <= n)%nat) by lia.
  eexists. split; [apply box_four; assumption|]. split; [apply box_kernel_four; lia|].
  pose proof (share_squares n (r_norm r) i j Hp Hi Hj Hij Zi Zj) as H. pose proof (gap_pos n ltac:(lia)) as G.
  assert (0 < (INR n / (INR n + 4) - INR n / (INR n + 2) * (INR n / (INR n + 2))) * (1 - rsum n (fun k => share n (r_norm r) k * share n (r_norm r) k))) by (apply Rmult_lt_0_compat; lra).
  lra.
Qed.
Lemma several_refuted : exists n i r v w, (i < n)%nat /\ uniform_mean 3 (-1) 1 (fun u => dist_sample Parabola n (with_sym r i u) i * dist_sample Parabola n (with_sym r i u) i) v
  /\ (forall base, is_tintN n (fun x => x i * x i * dist_evaluate Parabola n x) base w) /\ v <> w.
Proof.
  exists 2%nat, 0%nat, (mkRnd (fun _ => 0) (fun _ => 0) (fun _ _ => 0)), (1 / 5), (1 / (INR 2 + 4)).
  split; [lia|]. split; [apply parabola_square|]. split.
  - intros base. exact (proj1 (proj2 (parabola_spread 2 0 (mkRnd (fun _ => 0) (fun _ => 0) (fun _ _ => 0)) base ltac:(lia) ltac:(lia)))).
  - cbn [INR]. lra.
Qed.
Lemma noise_example : (forall x, continuous (fun t : R => t * t) x) /\ lipschitz (fun t => t * t) 2 /\ uniform_mean 2 0 1 (fun u => u 0%nat * u 0%nat) (1 / 3)
  /\ in_cube 2 0 1 (fun k => 1 / (INR k + 1)) = true /\ in_cube 2 0 1 (fun k => INR k + 1) = false.
Proof.
  split; [intros; cont|]. split; [|split; [|split]].
  - intros x y Hx Hy. replace (x * x - y * y) with ((x + y) * (x - y)) by ring. rewrite Rabs_mult. apply Rmult_le_compat_r; [apply Rabs_pos|]. apply Rabs_le. lra.
  - apply (mean_one 2 0 1 0 (fun t => t * t)); [lra|lia|]. set (F := fun t : R => / 3 * (t * t * t)). replace ((1 - 0) * (1 / 3)) with (F 1 - F 0) by (unfold F; field).
    apply (ftc F); intros x; [|cont]. unfold F. eapply der_eq; [der|]. cbv beta. field.
  - unfold in_cube. cbn [seq forallb INR]. destruct (Rleb_spec 0 (1 / (0 + 1))); [|lra]. destruct (Rleb_spec (1 / (0 + 1)) 1); [|lra].
    destruct (Rleb_spec 0 (1 / (1 + 1))); [|lra]. destruct (Rleb_spec (1 / (1 + 1)) 1); [reflexivity|lra].
  - unfold in_cube. cbn [seq forallb INR]. destruct (Rleb_spec 0 (0 + 1)); [|lra]. destruct (Rleb_spec (0 + 1) 1); [|lra].
    destruct (Rleb_spec 0 (1 + 1)); [|lra]. destruct (Rleb_spec (1 + 1) 1); [lra|reflexivity].
Qed.

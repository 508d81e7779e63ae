From Coquelicot Require Import Coquelicot.
From Verif Require Import Base ModelLinAlg SpecIntegral.

(** Epsilon characterisation. *)
Lemma tint_iff f l : is_tint f l <->
  (forall eps, 0 < eps -> exists M, forall a b, a < - M -> M < b ->
     exists y, is_RInt f a b y /\ Rabs (y - l) < eps).
Proof.
  split.
  - intros H eps Heps.
    specialize (H (fun y => Rabs (y - l) < eps)).
    assert (Hl : locally l (fun y => Rabs (y - l) < eps)).
    { exists (mkposreal eps Heps). intros y Hy. exact Hy. }
    specialize (H Hl). destruct H as [Q R0 HQ HR H].
    destruct HQ as [M1 HM1]. destruct HR as [M2 HM2].
    exists (Rmax (- M1) M2). intros a b Ha Hb.
    pose proof (Rmax_l (- M1) M2). pose proof (Rmax_r (- M1) M2).
    destruct (H a b) as [y [Hy1 Hy2]]; [apply HM1; lra|apply HM2; lra|].
    exists y. split; assumption.
  - intros H P [[eps Heps] HP]. destruct (H eps Heps) as [M HM].
    apply (Filter_prod _ _ _ (fun a => a < - M) (fun b => M < b)).
    + exists (- M). intros x Hx; exact Hx.
    + exists M. intros x Hx; exact Hx.
    + intros a b Ha Hb. destruct (HM a b Ha Hb) as [y [Hy1 Hy2]].
      exists y. split; [exact Hy1|]. apply HP. exact Hy2.
Qed.

Lemma is_RInt_eq (f : R -> R) a b (l1 l2 : R) : is_RInt f a b l1 -> is_RInt f a b l2 -> l1 = l2.
Proof.
  intros H1 H2.
  transitivity (RInt f a b); [symmetry|]; apply is_RInt_unique; assumption.
Qed.

Lemma tint_ext f g l : (forall x, f x = g x) -> is_tint f l -> is_tint g l.
Proof.
  rewrite !tint_iff. intros Hfg H eps Heps. destruct (H eps Heps) as [M HM]. exists M.
  intros a b Ha Hb. destruct (HM a b Ha Hb) as [y [H1 H2]]. exists y; split; [|exact H2].
  apply is_RInt_ext with f; [intros; apply Hfg|exact H1].
Qed.

Lemma tint_unique f l1 l2 : is_tint f l1 -> is_tint f l2 -> l1 = l2.
Proof.
  rewrite !tint_iff. intros H1 H2. destruct (Req_EM_T l1 l2) as [|Hne]; [assumption|exfalso].
  assert (He : 0 < Rabs (l1 - l2) / 2).
  { assert (0 < Rabs (l1 - l2)) by (apply Rabs_pos_lt; lra). lra. }
  destruct (H1 _ He) as [M1 HM1]. destruct (H2 _ He) as [M2 HM2].
  set (M := Rmax M1 M2 + 1).
  assert (M1 < M /\ M2 < M) as [HA HB].
  { unfold M. pose proof (Rmax_l M1 M2). pose proof (Rmax_r M1 M2). lra. }
  destruct (HM1 (- M) M) as [y1 [Hy1 Hd1]]; [lra|lra|].
  destruct (HM2 (- M) M) as [y2 [Hy2 Hd2]]; [lra|lra|].
  assert (y1 = y2).
  { rewrite <- (is_RInt_unique _ _ _ _ Hy1), <- (is_RInt_unique _ _ _ _ Hy2). reflexivity. }
  subst y2.
  assert (Rabs (l1 - l2) <= Rabs (y1 - l1) + Rabs (y1 - l2)).
  { replace (l1 - l2) with (- (y1 - l1) + (y1 - l2)) by ring.
    eapply Rle_trans; [apply Rabs_triang|]. rewrite Rabs_Ropp. lra. }
  lra.
Qed.

Lemma tint_scal c f l : is_tint f l -> is_tint (fun x => c * f x) (c * l).
Proof.
  rewrite !tint_iff. intros H eps Heps.
  destruct (Req_EM_T c 0) as [->|Hc].
  - destruct (H 1 Rlt_0_1) as [M HM]. exists M. intros a b Ha Hb.
    destruct (HM a b Ha Hb) as [y [Hy _]]. exists (0 * y). split.
    + apply (is_RInt_scal f a b 0 y Hy).
    + replace (0 * y - 0 * l) with 0 by ring. rewrite Rabs_R0. exact Heps.
  - assert (Hca : 0 < Rabs c) by (apply Rabs_pos_lt; exact Hc).
    destruct (H (eps / Rabs c)) as [M HM]; [apply Rdiv_lt_0_compat; assumption|].
    exists M. intros a b Ha Hb. destruct (HM a b Ha Hb) as [y [Hy Hd]].
    exists (c * y). split; [apply (is_RInt_scal f a b c y Hy)|].
    replace (c * y - c * l) with (c * (y - l)) by ring. rewrite Rabs_mult.
    apply Rmult_lt_reg_l with (/ Rabs c); [apply Rinv_0_lt_compat; exact Hca|].
    rewrite <- Rmult_assoc, Rinv_l, Rmult_1_l by lra. unfold Rdiv in Hd. lra.
Qed.

Lemma tint_plus f g lf lg : is_tint f lf -> is_tint g lg -> is_tint (fun x => f x + g x) (lf + lg).
Proof.
  rewrite !tint_iff. intros Hf Hg eps Heps.
  destruct (Hf (eps / 2)) as [M1 HM1]; [lra|]. destruct (Hg (eps / 2)) as [M2 HM2]; [lra|].
  exists (Rmax M1 M2). intros a b Ha Hb.
  pose proof (Rmax_l M1 M2). pose proof (Rmax_r M1 M2).
  destruct (HM1 a b) as [y1 [Hy1 Hd1]]; [lra|lra|].
  destruct (HM2 a b) as [y2 [Hy2 Hd2]]; [lra|lra|].
  exists (y1 + y2). split; [apply (is_RInt_plus f g a b y1 y2 Hy1 Hy2)|].
  replace (y1 + y2 - (lf + lg)) with ((y1 - lf) + (y2 - lg)) by ring.
  eapply Rle_lt_trans; [apply Rabs_triang|]. lra.
Qed.

Lemma is_RInt_zero a b : is_RInt (fun _ : R => 0) a b 0.
Proof.
  assert (H : is_RInt (fun _ : R => 0) a b ((b - a) * 0)) by exact (is_RInt_const a b (0 : R)).
  rewrite Rmult_0_r in H. exact H.
Qed.

Lemma tint_zero : is_tint (fun _ => 0) 0.
Proof.
  rewrite tint_iff. intros eps Heps. exists 0. intros a b _ _. exists 0. split; [apply is_RInt_zero|].
  rewrite Rminus_0_r, Rabs_R0. exact Heps.
Qed.

Lemma tint_sumf {A} (f : A -> R -> R) (v : A -> R) l :
  (forall a, In a l -> is_tint (f a) (v a)) ->
  is_tint (fun x => sumf (fun a => f a x) l) (sumf v l).
Proof.
  induction l as [|a l IH]; intros H.
  - apply tint_zero.
  - apply tint_plus; [apply H; left; reflexivity|]. apply IH. intros; apply H; right; assumption.
Qed.

(** Linear substitution. *)
Lemma tint_comp_lin f l u v : 0 < u -> is_tint f l -> is_tint (fun x => f (u * x + v)) (l / u).
Proof.
  intros Hu H.
  assert (H1 : is_tint (fun x => u * f (u * x + v)) l).
  { rewrite tint_iff in *. intros eps Heps. destruct (H eps Heps) as [M HM].
    exists ((Rabs M + Rabs v) / u). intros a b Ha Hb.
    assert (E : u * ((Rabs M + Rabs v) / u) = Rabs M + Rabs v) by (field; lra).
    assert (Ha' : u * a < - (Rabs M + Rabs v)).
    { rewrite <- E, <- Ropp_mult_distr_r_reverse. apply Rmult_lt_compat_l; lra. }
    assert (Hb' : Rabs M + Rabs v < u * b).
    { rewrite <- E. apply Rmult_lt_compat_l; lra. }
    pose proof (Rle_abs M). pose proof (Rle_abs v). pose proof (Rle_abs (- v)) as Hv.
    rewrite Rabs_Ropp in Hv.
    destruct (HM (u * a + v) (u * b + v)) as [y [Hy Hd]]; [lra|lra|].
    exists y. split; [|exact Hd].
    apply (is_RInt_comp_lin f u v a b y Hy). }
  replace (l / u) with (/ u * l) by (field; lra).
  apply tint_ext with (fun x => / u * (u * f (u * x + v))).
  - intros x. field. lra.
  - apply tint_scal. exact H1.
Qed.

(** Reflection x -> -x. *)
Lemma tint_opp f l : is_tint f l -> is_tint (fun x => f (- x)) l.
Proof.
  rewrite !tint_iff. intros H eps Heps. destruct (H eps Heps) as [M HM]. exists M.
  intros a b Ha Hb. destruct (HM (- b) (- a)) as [y [Hy Hd]]; [lra|lra|].
  exists y. split; [|exact Hd].
  apply is_RInt_swap in Hy.
  pose proof (is_RInt_comp_lin f (-1) 0 a b (opp y)) as HC.
  replace (-1 * a + 0) with (- a) in HC by ring.
  replace (-1 * b + 0) with (- b) in HC by ring.
  specialize (HC Hy). apply is_RInt_opp in HC.
  rewrite opp_opp in HC. apply is_RInt_ext with (2 := HC).
  intros x _. unfold opp, scal; simpl. unfold mult; simpl.
  replace (-1 * x + 0) with (- x) by ring. ring.
Qed.

(** Functions vanishing outside an interval. *)
Lemma tint_compact f a b l : a <= b -> is_RInt f a b l ->
  (forall x, x < a -> f x = 0) -> (forall x, b < x -> f x = 0) -> is_tint f l.
Proof.
  intros Hab H Hl Hr. rewrite tint_iff. intros eps Heps.
  exists (Rabs a + Rabs b). intros a' b' Ha Hb.
  pose proof (Rle_abs (- a)) as H1. pose proof (Rle_abs (- b)) as H2. rewrite Rabs_Ropp in H1, H2.
  pose proof (Rle_abs a). pose proof (Rle_abs b).
  pose proof (Rabs_pos a). pose proof (Rabs_pos b).
  exists l. split; [|rewrite Rminus_eq_0, Rabs_R0; exact Heps].
  assert (HA : is_RInt f a' a 0).
  { apply is_RInt_ext with (fun _ => 0); [|apply is_RInt_zero].
    intros x Hx. rewrite Rmin_left, Rmax_right in Hx by lra. symmetry; apply Hl; lra. }
  assert (HB : is_RInt f b b' 0).
  { apply is_RInt_ext with (fun _ => 0); [|apply is_RInt_zero].
    intros x Hx. rewrite Rmin_left, Rmax_right in Hx by lra. symmetry; apply Hr; lra. }
  pose proof (is_RInt_Chasles _ _ _ _ _ _ HA H) as HC.
  pose proof (is_RInt_Chasles _ _ _ _ _ _ HC HB) as HD.
  replace l with (plus (plus 0 l) 0); [exact HD|]. unfold plus; simpl; ring.
Qed.

(** Splitting the line at a point. *)
Lemma tint_nonneg f l : (forall x, 0 <= f x) -> is_tint f l -> 0 <= l.
Proof.
  intros Hf H. rewrite tint_iff in H. destruct (Rle_lt_dec 0 l) as [|Hneg]; [assumption|exfalso].
  destruct (H (- l)) as [M HM]; [lra|].
  set (N := Rabs M + 1).
  assert (M < N) by (unfold N; pose proof (Rle_abs M); lra).
  assert (0 < N) by (unfold N; pose proof (Rabs_pos M); lra).
  destruct (HM (- N) N) as [y [Hy Hd]]; [lra|lra|].
  assert (0 <= y).
  { apply (is_RInt_ge_0 f (- N) N y); [lra|exact Hy|intros; apply Hf]. }
  apply Rabs_def2 in Hd. lra.
Qed.

(* ---------------------------------------------------------------- iterated integrals *)
Lemma tintN_ext n f g base l : (forall x, f x = g x) -> is_tintN n f base l -> is_tintN n g base l.
Proof.
  revert base l. induction n as [|n IH]; intros base l H H1; simpl in *; [rewrite <- H; exact H1|].
  destruct H1 as [h [Hh Hl]]. exists h. split; [|exact Hl]. intros t. apply IH; auto.
Qed.
Lemma tintN_scal n c f base l : is_tintN n f base l -> is_tintN n (fun x => c * f x) base (c * l).
Proof.
  revert base l. induction n as [|n IH]; intros base l H; simpl in *; [rewrite H; reflexivity|].
  destruct H as [h [Hh Hl]]. exists (fun t => c * h t). split; [|apply tint_scal, Hl].
  intros t; apply IH, Hh.
Qed.
Lemma tintN_plus n f g base lf lg : is_tintN n f base lf -> is_tintN n g base lg ->
  is_tintN n (fun x => f x + g x) base (lf + lg).
Proof.
  revert base lf lg. induction n as [|n IH]; intros base lf lg Hf Hg; simpl in *; [congruence|].
  destruct Hf as [h [Hh Hl]]. destruct Hg as [k [Hk Hm]].
  exists (fun t => h t + k t). split; [intros t; apply IH; auto|]. apply tint_plus; assumption.
Qed.
Lemma tintN_zero n base : is_tintN n (fun _ => 0) base 0.
Proof.
  revert base. induction n as [|n IH]; intros base; simpl; [reflexivity|].
  exists (fun _ => 0). split; [intros; apply IH|apply tint_zero].
Qed.
Lemma tintN_sumf {A} n (f : A -> pt -> R) (v : A -> R) base l :
  (forall a, In a l -> is_tintN n (f a) base (v a)) ->
  is_tintN n (fun x => sumf (fun a => f a x) l) base (sumf v l).
Proof.
  induction l as [|a l IH]; intros H; [apply tintN_zero|].
  apply tintN_plus; [apply H; left; reflexivity|]. apply IH; intros; apply H; right; assumption.
Qed.
Lemma tintN_unique n f base l1 l2 : is_tintN n f base l1 -> is_tintN n f base l2 -> l1 = l2.
Proof.
  revert base l1 l2. induction n as [|n IH]; intros base l1 l2 H1 H2; simpl in *; [congruence|].
  destruct H1 as [h [Hh Hl]]. destruct H2 as [k [Hk Hm]].
  assert (E : forall t, h t = k t) by (intros t; eapply IH; [apply Hh|apply Hk]).
  apply tint_unique with h; [exact Hl|]. apply tint_ext with k; [intros; symmetry; apply E|exact Hm].
Qed.
Lemma upd_same x k t : upd x k t k = t.
Proof. unfold upd; rewrite Nat.eqb_refl; reflexivity. Qed.
Lemma upd_other x k t i : i <> k -> upd x k t i = x i.
Proof. unfold upd; destruct (Nat.eqb_spec i k); congruence. Qed.

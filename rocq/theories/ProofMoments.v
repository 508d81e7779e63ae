From Coquelicot Require Import Coquelicot.
From Coq Require Import String.
From Verif Require Import Base ModelLinAlg SpecLinAlg ProofLinAlg SpecIntegral ProofIntegral
  ProofWallis ProofGauss ModelKernels SpecKernels ProofKernels ModelKDE SpecKDE ProofKDE ProofTop ProofExamples ProofTop2 SpecMoments.
Open Scope R_scope.
Notation length := List.length.

(* ---------------------------------------------------------------- one dimension: finite kernels *)
Lemma tint_odd f l : (forall x, f (- x) = - f x) -> is_tint f l -> l = 0.
Proof.
  intros Ho H. pose proof (tint_opp f l H) as H1.
  apply (tint_ext _ (fun x => -1 * f x)) in H1; [|intros; rewrite Ho; ring].
  pose proof (tint_scal (-1) f l H) as H2. pose proof (tint_unique _ _ _ H1 H2). lra.
Qed.

Lemma continuous_skq q r x : continuous (fun t => t * sqrt (1 - (r + t * t)) ^ q) x.
Proof.
  apply (continuous_mult (fun t => t) (fun t => sqrt (1 - (r + t * t)) ^ q)); [apply continuous_id|].
  assert (H : continuous (fun t => sqrt (1 - (r + t * t))) x).
  { apply (continuous_comp (fun t => 1 - (r + t * t)) sqrt).
    - apply cont_of_derive. auto_derive. exact I.
    - apply continuous_sqrt. }
  induction q as [|q IH]; simpl; [apply continuous_const|].
  apply (continuous_mult (fun t => sqrt (1 - (r + t * t))) (fun t => sqrt (1 - (r + t * t)) ^ q)); assumption.
Qed.

Lemma kq_odd q r : is_tint (fun t => t * kq q (r + t * t)) 0.
Proof.
  assert (Hex : exists l, is_tint (fun t => t * kq q (r + t * t)) l).
  { destruct (Rle_dec r 1) as [Hr|Hr].
    - assert (Hs : 0 <= sqrt (1 - r)) by apply sqrt_pos.
      assert (Hss : sqrt (1 - r) * sqrt (1 - r) = 1 - r) by (apply sqrt_sqrt; lra).
      assert (Hout : forall x, sqrt (1 - r) < Rabs x -> x * kq q (r + x * x) = 0).
      { intros x Hx. unfold kq. destruct (Rle_dec _ _) as [Hc|]; [|ring].
        exfalso. assert (Hx2 : sqrt (1 - r) * sqrt (1 - r) < Rabs x * Rabs x) by nra.
        rewrite <- Rabs_mult, Rabs_pos_eq in Hx2 by nra. lra. }
      assert (Hex : ex_RInt (fun t => t * sqrt (1 - (r + t * t)) ^ q) (- sqrt (1 - r)) (sqrt (1 - r))).
      { apply (ex_RInt_continuous (V := R_CompleteNormedModule)). intros; apply continuous_skq. }
      destruct Hex as [l Hl]. exists l. apply tint_compact with (- sqrt (1 - r)) (sqrt (1 - r)); [lra| | |].
      + apply is_RInt_ext with (2 := Hl). intros x Hx. rewrite Rmin_left, Rmax_right in Hx by lra.
        unfold kq. destruct (Rle_dec _ _) as [_|Hc]; [reflexivity|]. exfalso; apply Hc. nra.
      + intros x Hx. apply Hout. rewrite Rabs_left by lra. lra.
      + intros x Hx. apply Hout. rewrite Rabs_right by lra. lra.
    - exists 0. apply tint_ext with (fun _ => 0); [|apply tint_zero].
      intros x. unfold kq. destruct (Rle_dec _ _) as [Hc|]; [|ring].
      exfalso. assert (0 <= x * x) by nra. lra. }
  destruct Hex as [l Hl]. replace 0 with l; [exact Hl|].
  apply tint_odd with (2 := Hl). intros x. replace (- x * - x) with (x * x) by ring. ring.
Qed.

Lemma kq_step1 q r u v : 0 < u ->
  is_tint (fun t => (u * t + v) * kq q (r + (u * t + v) * (u * t + v))) 0.
Proof.
  intros Hu. replace 0 with (0 / u) by (field; lra).
  apply (tint_comp_lin (fun t => t * kq q (r + t * t)) 0 u v Hu (kq_odd q r)).
Qed.

Lemma kq_SS q r : r <= 1 -> kq (S (S q)) r = (1 - r) * kq q r.
Proof.
  intros H. unfold kq. destruct (Rle_dec r 1) as [_|]; [|contradiction]. simpl.
  rewrite <- Rmult_assoc, sqrt_sqrt by lra. reflexivity.
Qed.

Lemma kq_step2 q r u v : 0 < u ->
  is_tint (fun t => (u * t + v) * (u * t + v) * kq q (r + (u * t + v) * (u * t + v)))
    (betaq q * / (INR (S q) + 2) / u * kq (S (S (S q))) r).
Proof.
  intros Hu. destruct (Rle_dec r 1) as [Hr|Hr].
  - pose proof (tint_scal (1 - r) _ _ (kq_step q r u v Hu)) as H1.
    pose proof (tint_scal (-1) _ _ (kq_step (S (S q)) r u v Hu)) as H2.
    pose proof (tint_plus _ _ _ _ H1 H2) as H.
    replace (betaq q * / (INR (S q) + 2) / u * kq (S (S (S q))) r)
      with ((1 - r) * (betaq q / u * kq (S q) r) + -1 * (betaq (S (S q)) / u * kq (S (S (S q))) r)).
    + apply tint_ext with (2 := H). intros t. cbv beta. set (s := (u * t + v) * (u * t + v)).
      destruct (Rle_dec (r + s) 1) as [Hc|Hc].
      * rewrite kq_SS by exact Hc. ring.
      * unfold kq. destruct (Rle_dec (r + s) 1); [contradiction|]. ring.
    + rewrite betaq_SS, (kq_SS (S q)) by exact Hr. rewrite S_INR. pose proof (pos_INR q). field. repeat split; apply Rgt_not_eq; lra.
  - replace (betaq q * / (INR (S q) + 2) / u * kq (S (S (S q))) r) with 0.
    + apply tint_ext with (fun _ => 0); [|apply tint_zero]. intros t. unfold kq.
      destruct (Rle_dec _ _) as [Hc|]; [|ring]. exfalso. pose proof (Rle_0_sqr (u * t + v)) as Hq; unfold Rsqr in Hq. lra.
    + unfold kq. destruct (Rle_dec r 1); [contradiction|]. ring.
Qed.

(* ---------------------------------------------------------------- one dimension: Gaussian *)
(** Integrals over the line from an antiderivative that vanishes at both ends. *)
Lemma tint_antideriv f F : (forall x, is_derive F x (f x)) -> (forall x, continuous f x) ->
  (forall eps, 0 < eps -> exists m, forall x, m < Rabs x -> Rabs (F x) < eps) -> is_tint f 0.
Proof.
  intros Hd Hc Hl. rewrite tint_iff. intros eps Heps. destruct (Hl (eps / 2)) as [m Hm]; [lra|].
  exists (Rabs m + 1). intros a b Ha Hb. exists (F b - F a). split.
  - apply (is_RInt_derive F f a b); intros; auto.
  - rewrite Rminus_0_r. pose proof (Rle_abs m). pose proof (Rabs_pos m).
    assert (H1 : Rabs (F b) < eps / 2) by (apply Hm; rewrite Rabs_pos_eq; lra).
    assert (H2 : Rabs (F a) < eps / 2) by (apply Hm; rewrite Rabs_left; lra).
    replace (F b - F a) with (F b + - F a) by ring. eapply Rle_lt_trans; [apply Rabs_triang|]. rewrite Rabs_Ropp. lra.
Qed.

Lemma exp_bound x : 0 < x -> exp (- x) < / x.
Proof.
  intros Hx. rewrite exp_Ropp. apply Rinv_lt_contravar.
  - apply Rmult_lt_0_compat; [exact Hx|apply exp_pos].
  - pose proof (exp_ineq1 x ltac:(lra)). lra.
Qed.

Lemma gauss_tail x : 1 <= Rabs x -> Rabs x * exp (- (x * x) / 2) <= 2 / Rabs x.
Proof.
  intros Hx. assert (E : x * x = Rabs x * Rabs x) by (rewrite <- Rabs_mult, Rabs_pos_eq; [reflexivity|nra]).
  rewrite E. set (a := Rabs x) in *. clearbody a.
  replace (- (a * a) / 2) with (- (a * a / 2)) by field.
  pose proof (exp_bound (a * a / 2) ltac:(nra)) as H.
  replace (2 / a) with (a * / (a * a / 2)) by (field; lra).
  apply Rmult_le_compat_l; lra.
Qed.

Lemma gauss_odd : is_tint (fun t => t * exp (- (t * t) / 2)) 0.
Proof.
  apply (tint_antideriv _ (fun t => - exp (- (t * t) / 2))).
  - intros x. auto_derive; [exact I|]. unfold Rdiv. field.
  - intros x. apply (ex_derive_continuous (fun t => t * exp (- (t * t) / 2))). auto_derive. exact I.
  - intros eps He. exists (1 + 2 / eps). intros x Hx. assert (H0 : 0 < 2 / eps) by (apply Rdiv_lt_0_compat; lra).
    assert (H1 : 1 <= Rabs x) by lra. pose proof (gauss_tail x H1) as H2.
    rewrite Rabs_Ropp, (Rabs_pos_eq (exp _)) by (left; apply exp_pos).
    pose proof (exp_pos (- (x * x) / 2)). assert (H3 : 2 / Rabs x < eps).
    { apply Rmult_lt_reg_r with (Rabs x); [lra|]. replace (2 / Rabs x * Rabs x) with 2 by (field; lra).
      assert (E : eps * (2 / eps) = 2) by (field; lra). nra. }
    nra.
Qed.

Lemma gauss_sq : is_tint (fun t => t * t * exp (- (t * t) / 2)) (sqrt (2 * PI)).
Proof.
  assert (H : is_tint (fun t => (t * t - 1) * exp (- (t * t) / 2)) 0).
  { apply (tint_antideriv _ (fun t => - (t * exp (- (t * t) / 2)))).
    - intros x. auto_derive; [exact I|]. unfold Rdiv. field.
    - intros x. apply (ex_derive_continuous (fun t => (t * t - 1) * exp (- (t * t) / 2))). auto_derive. exact I.
    - intros eps He. exists (1 + 2 / eps). intros x Hx. assert (H0 : 0 < 2 / eps) by (apply Rdiv_lt_0_compat; lra).
      assert (H1 : 1 <= Rabs x) by lra. pose proof (gauss_tail x H1) as H2.
      rewrite Rabs_Ropp, Rabs_mult, (Rabs_pos_eq (exp _)) by (left; apply exp_pos).
      assert (H3 : 2 / Rabs x < eps).
      { apply Rmult_lt_reg_r with (Rabs x); [lra|]. replace (2 / Rabs x * Rabs x) with 2 by (field; lra).
        assert (E : eps * (2 / eps) = 2) by (field; lra). nra. }
      lra. }
  pose proof (gauss_step 0 1 0 Rlt_0_1) as G.
  pose proof (tint_plus _ _ _ _ H G) as HP.
  replace (- 0 / 2) with 0 in HP by field. rewrite exp_0 in HP.
  replace (0 + sqrt (2 * PI) / 1 * 1) with (sqrt (2 * PI)) in HP by field.
  apply tint_ext with (2 := HP). intros t. cbv beta.
  replace (- (0 + (1 * t + 0) * (1 * t + 0)) / 2) with (- (t * t) / 2) by field. ring.
Qed.

Lemma gauss_step1 r u v : 0 < u ->
  is_tint (fun t => (u * t + v) * exp (- (r + (u * t + v) * (u * t + v)) / 2)) 0.
Proof.
  intros Hu. pose proof (tint_comp_lin _ _ u v Hu gauss_odd) as H. apply (tint_scal (exp (- r / 2))) in H.
  replace (exp (- r / 2) * (0 / u)) with 0 in H by (field; lra).
  apply tint_ext with (2 := H). intros t. cbv beta.
  replace (- (r + (u * t + v) * (u * t + v)) / 2) with (- r / 2 + - ((u * t + v) * (u * t + v)) / 2) by field.
  rewrite exp_plus. ring.
Qed.

Lemma gauss_step2 r u v : 0 < u ->
  is_tint (fun t => (u * t + v) * (u * t + v) * exp (- (r + (u * t + v) * (u * t + v)) / 2))
    (sqrt (2 * PI) * 1 / u * exp (- r / 2)).
Proof.
  intros Hu. pose proof (tint_comp_lin _ _ u v Hu gauss_sq) as H. apply (tint_scal (exp (- r / 2))) in H.
  replace (sqrt (2 * PI) * 1 / u * exp (- r / 2)) with (exp (- r / 2) * (sqrt (2 * PI) / u)) by (field; lra).
  apply tint_ext with (2 := H). intros t. cbv beta.
  replace (- (r + (u * t + v) * (u * t + v)) / 2) with (- r / 2 + - ((u * t + v) * (u * t + v)) / 2) by field.
  rewrite exp_plus. ring.
Qed.

(* ---------------------------------------------------------------- n dimensions *)
Section Moments.
  Variable K : nat -> R -> R.
  Variable B e : nat -> R.
  Hypothesis H0 : forall q r u v, 0 < u ->
    is_tint (fun t => K q (r + (u * t + v) * (u * t + v))) (B q / u * K (S q) r).
  Hypothesis H1 : forall q r u v, 0 < u ->
    is_tint (fun t => (u * t + v) * K q (r + (u * t + v) * (u * t + v))) 0.
  Hypothesis H2 : forall q r u v, 0 < u ->
    is_tint (fun t => (u * t + v) * (u * t + v) * K q (r + (u * t + v) * (u * t + v)))
      (B q * e (S q) / u * K (S (S (S q))) r).
  Hypothesis He : forall m, e m * B (S (S m)) = B m * e (S m).

  Let y (n : nat) (U : mat) (v : pt) (x : pt) (k : nat) := mvec n U x k + v k.
  Let s (n : nat) (U : mat) (v : pt) (x : pt) := rsum n (fun k => y n U v x k * y n U v x k).

  Lemma y_last n U v x t : (forall i j, (j < i)%nat -> U i j = 0) -> x n = t ->
    y (S n) U v x n = U n n * t + v n.
  Proof.
    intros Hz Hx. unfold y, mvec. cbn [rsum]. rewrite rsum_zero_ext; [rewrite Hx; ring|].
    intros k Hk. rewrite Hz by lia. ring.
  Qed.
  Lemma y_inner n U v x t k : x n = t -> y (S n) U v x k = y n U (fun k => U k n * t + v k) x k.
  Proof. intros Hx. unfold y, mvec. cbn [rsum]. rewrite Hx. ring. Qed.
  Lemma s_last n U v x t r : (forall i j, (j < i)%nat -> U i j = 0) -> x n = t ->
    r + s (S n) U v x = r + (U n n * t + v n) * (U n n * t + v n) + s n U (fun k => U k n * t + v k) x.
  Proof.
    intros Hz Hx. unfold s. cbn [rsum]. rewrite (y_last n U v x t Hz Hx).
    rewrite (rsum_ext n _ (fun k => y n U (fun k => U k n * t + v k) x k * y n U (fun k => U k n * t + v k) x k)); [ring|].
    intros k _. rewrite (y_inner n U v x t k Hx). reflexivity.
  Qed.

  Lemma moment0 n U q r v base :
    (forall i j, (j < i)%nat -> U i j = 0) -> (forall i, (i < n)%nat -> 0 < U i i) ->
    is_tintN n (fun x => K q (r + s n U v x)) base (rprod n (fun i => B (q + i) / U i i) * K (q + n) r).
  Proof. apply (tintN_triangular K B H0 n U q r v base). Qed.

  Lemma moment1 n U q r v base i : (i < n)%nat ->
    (forall i j, (j < i)%nat -> U i j = 0) -> (forall i, (i < n)%nat -> 0 < U i i) ->
    is_tintN n (fun x => y n U v x i * K q (r + s n U v x)) base 0.
  Proof.
    intros Hi Hz. revert q r v base i Hi. induction n as [|n IH]; intros q r v base i Hi Hp; [lia|].
    assert (Hp' : forall i, (i < n)%nat -> 0 < U i i) by (intros; apply Hp; lia).
    cbn [is_tintN]. destruct (Nat.eq_dec i n) as [->|Hne].
    - exists (fun t => rprod n (fun i => B (q + i) / U i i)
                * ((U n n * t + v n) * K (q + n)%nat (r + (U n n * t + v n) * (U n n * t + v n)))). split.
      + intros t.
        pose proof (moment0 n U q (r + (U n n * t + v n) * (U n n * t + v n)) (fun k => U k n * t + v k) (upd base n t) Hz Hp') as HM.
        apply (tintN_scal n (U n n * t + v n)) in HM.
        replace (rprod n (fun i => B (q + i) / U i i) * ((U n n * t + v n) * K (q + n)%nat (r + (U n n * t + v n) * (U n n * t + v n))))
          with ((U n n * t + v n) * (rprod n (fun i => B (q + i) / U i i) * K (q + n)%nat (r + (U n n * t + v n) * (U n n * t + v n)))) by ring.
        apply tintN_ext_base with (2 := HM). intros x Hx. assert (Hxn : x n = t) by (rewrite Hx by lia; apply upd_same).
        rewrite (y_last n U v x t Hz Hxn), (s_last n U v x t r Hz Hxn). reflexivity.
      + replace 0 with (rprod n (fun i => B (q + i) / U i i) * 0) by ring. apply tint_scal. apply H1. apply Hp; lia.
    - exists (fun _ => 0). split; [|apply tint_zero]. intros t.
      pose proof (IH q (r + (U n n * t + v n) * (U n n * t + v n)) (fun k => U k n * t + v k) (upd base n t) i ltac:(lia) Hp') as HM.
      apply tintN_ext_base with (2 := HM). intros x Hx. assert (Hxn : x n = t) by (rewrite Hx by lia; apply upd_same).
      rewrite (y_inner n U v x t i Hxn), (s_last n U v x t r Hz Hxn). reflexivity.
  Qed.

  Lemma moment2 n U q r v base i j : (i < n)%nat -> (j < n)%nat ->
    (forall i j, (j < i)%nat -> U i j = 0) -> (forall i, (i < n)%nat -> 0 < U i i) ->
    is_tintN n (fun x => y n U v x i * y n U v x j * K q (r + s n U v x)) base
      (ident i j * (e (q + n) * rprod n (fun i => B (q + i) / U i i) * K (S (S (q + n))) r)).
  Proof.
    intros Hi Hj Hz. revert q r v base i j Hi Hj. induction n as [|n IH]; intros q r v base i j Hi Hj Hp; [lia|].
    assert (Hp' : forall i, (i < n)%nat -> 0 < U i i) by (intros; apply Hp; lia).
    assert (Hn : 0 < U n n) by (apply Hp; lia).
    set (P := rprod n (fun i => B (q + i) / U i i)).
    cbn [is_tintN]. destruct (Nat.eq_dec i n) as [->|Hni]; destruct (Nat.eq_dec j n) as [->|Hnj].
    - exists (fun t => P * ((U n n * t + v n) * (U n n * t + v n) * K (q + n)%nat (r + (U n n * t + v n) * (U n n * t + v n)))). split.
      + intros t.
        pose proof (moment0 n U q (r + (U n n * t + v n) * (U n n * t + v n)) (fun k => U k n * t + v k) (upd base n t) Hz Hp') as HM.
        apply (tintN_scal n ((U n n * t + v n) * (U n n * t + v n))) in HM. fold P in HM.
        replace (P * ((U n n * t + v n) * (U n n * t + v n) * K (q + n)%nat (r + (U n n * t + v n) * (U n n * t + v n))))
          with ((U n n * t + v n) * (U n n * t + v n) * (P * K (q + n)%nat (r + (U n n * t + v n) * (U n n * t + v n)))) by ring.
        apply tintN_ext_base with (2 := HM). intros x Hx. assert (Hxn : x n = t) by (rewrite Hx by lia; apply upd_same).
        rewrite (y_last n U v x t Hz Hxn), (s_last n U v x t r Hz Hxn). reflexivity.
      + rewrite ident_refl. cbn [rprod]. fold P. replace (q + S n)%nat with (S (q + n)) by lia.
        replace (1 * (e (S (q + n)) * (P * (B (q + n)%nat / U n n)) * K (S (S (S (q + n)))) r))
          with (P * (B (q + n)%nat * e (S (q + n)) / U n n * K (S (S (S (q + n)))) r)) by (unfold Rdiv; ring).
        apply tint_scal. apply H2. exact Hn.
    - exists (fun _ => 0). split.
      + intros t.
        pose proof (moment1 n U q (r + (U n n * t + v n) * (U n n * t + v n)) (fun k => U k n * t + v k) (upd base n t) j ltac:(lia) Hz Hp') as HM.
        apply (tintN_scal n (U n n * t + v n)) in HM. rewrite Rmult_0_r in HM.
        apply tintN_ext_base with (2 := HM). intros x Hx. assert (Hxn : x n = t) by (rewrite Hx by lia; apply upd_same).
        rewrite (y_last n U v x t Hz Hxn), (y_inner n U v x t j Hxn), (s_last n U v x t r Hz Hxn). ring.
      + rewrite ident_neq by congruence. rewrite Rmult_0_l. apply tint_zero.
    - exists (fun _ => 0). split.
      + intros t.
        pose proof (moment1 n U q (r + (U n n * t + v n) * (U n n * t + v n)) (fun k => U k n * t + v k) (upd base n t) i ltac:(lia) Hz Hp') as HM.
        apply (tintN_scal n (U n n * t + v n)) in HM. rewrite Rmult_0_r in HM.
        apply tintN_ext_base with (2 := HM). intros x Hx. assert (Hxn : x n = t) by (rewrite Hx by lia; apply upd_same).
        rewrite (y_last n U v x t Hz Hxn), (y_inner n U v x t i Hxn), (s_last n U v x t r Hz Hxn). ring.
      + rewrite ident_neq by congruence. rewrite Rmult_0_l. apply tint_zero.
    - exists (fun t => ident i j * (e (q + n)%nat * P * K (S (S (q + n))) (r + (U n n * t + v n) * (U n n * t + v n)))). split.
      + intros t.
        pose proof (IH q (r + (U n n * t + v n) * (U n n * t + v n)) (fun k => U k n * t + v k) (upd base n t) i j ltac:(lia) ltac:(lia) Hp') as HM.
        fold P in HM.
        apply tintN_ext_base with (2 := HM). intros x Hx. assert (Hxn : x n = t) by (rewrite Hx by lia; apply upd_same).
        rewrite (y_inner n U v x t i Hxn), (y_inner n U v x t j Hxn), (s_last n U v x t r Hz Hxn). reflexivity.
      + apply tint_scal. cbn [rprod]. fold P. replace (q + S n)%nat with (S (q + n)) by lia.
        replace (e (S (q + n)) * (P * (B (q + n)%nat / U n n)) * K (S (S (S (q + n)))) r)
          with (P * (e (q + n)%nat * B (S (S (q + n))) / U n n * K (S (S (S (q + n)))) r)).
        2:{ rewrite (He (q + n)). unfold Rdiv. ring. }
        replace (P * (e (q + n)%nat * B (S (S (q + n))) / U n n * K (S (S (S (q + n)))) r))
          with (e (q + n)%nat * P * (B (S (S (q + n))) / U n n * K (S (S (S (q + n)))) r)) by (unfold Rdiv; ring).
        apply tint_scal. apply H0. exact Hn.
  Qed.
End Moments.

(* ---------------------------------------------------------------- kernels *)
Lemma kernel_moment1 d n U a base i : (i < n)%nat ->
  (forall i j, (j < i)%nat -> U i j = 0) -> (forall i, (i < n)%nat -> 0 < U i i) ->
  is_tintN n (fun x => (mvec n U x i + - mvec n U a i) * prof d (white_dist2 n U x a)) base 0.
Proof.
  intros Hi Hz Hp. destruct (finite d) eqn:E.
  - pose proof (moment1 kq betaq kq_step kq_step1 n U (dq d) 0 (fun k => - mvec n U a k) base i Hi Hz Hp) as H.
    apply tintN_ext with (2 := H). intros x. rewrite prof_kq by exact E. rewrite white_dist2_alt, Rplus_0_l. reflexivity.
  - destruct d; try discriminate.
    pose proof (moment1 (fun _ r => exp (- r / 2)) (fun _ => sqrt (2 * PI)) (fun _ r u v => gauss_step r u v)
      (fun _ r u v => gauss_step1 r u v) n U 0 0 (fun k => - mvec n U a k) base i Hi Hz Hp) as H.
    apply tintN_ext with (2 := H). intros x. unfold prof. rewrite white_dist2_alt, Rplus_0_l. reflexivity.
Qed.

Lemma kernel_var_dq d n : finite d = true -> kernel_var d n = / (INR (dq d + n) + 2).
Proof. intros H. rewrite plus_INR. destruct d; try discriminate; unfold kernel_var, dq; f_equal; simpl INR; ring. Qed.

Lemma kernel_moment2 d n U a base i j : (i < n)%nat -> (j < n)%nat ->
  (forall i j, (j < i)%nat -> U i j = 0) -> (forall i, (i < n)%nat -> 0 < U i i) ->
  is_tintN n (fun x => (mvec n U x i + - mvec n U a i) * (mvec n U x j + - mvec n U a j) * prof d (white_dist2 n U x a)) base
    (ident i j * (kernel_var d n * (dist_norm d n / rprod n (fun i => U i i)))).
Proof.
  intros Hi Hj Hz Hp. assert (Hn : (1 <= n)%nat) by lia.
  assert (Hne : forall i, (i < n)%nat -> U i i <> 0) by (intros k Hk; specialize (Hp k Hk); lra).
  destruct (finite d) eqn:E.
  - assert (He : forall m, / (INR m + 2) * betaq (S (S m)) = betaq m * / (INR (S m) + 2)).
    { intros m. rewrite betaq_SS, S_INR. pose proof (pos_INR m). field. split; apply Rgt_not_eq; lra. }
    pose proof (moment2 kq betaq (fun m => / (INR m + 2)) kq_step kq_step1 kq_step2 He n U (dq d) 0 (fun k => - mvec n U a k) base i j Hi Hj Hz Hp) as H.
    cbv beta in H. rewrite kq_0, Rmult_1_r, rprod_div in H by exact Hne.
    rewrite <- dist_norm_finite in H by assumption. rewrite <- (kernel_var_dq d n E) in H.
    apply tintN_ext with (2 := H). intros x. rewrite prof_kq by exact E. rewrite white_dist2_alt, Rplus_0_l. reflexivity.
  - destruct d; try discriminate.
    pose proof (moment2 (fun _ r => exp (- r / 2)) (fun _ => sqrt (2 * PI)) (fun _ => 1) (fun _ r u v => gauss_step r u v)
      (fun _ r u v => gauss_step1 r u v) (fun _ r u v => gauss_step2 r u v)
      (fun _ => Rmult_comm _ _) n U 0 0 (fun k => - mvec n U a k) base i j Hi Hj Hz Hp) as H.
    cbv beta in H. replace (- 0 / 2) with 0 in H by field.
    rewrite exp_0, Rmult_1_r, (rprod_div n (fun _ => sqrt (2 * PI))) in H by exact Hne.
    rewrite <- dist_norm_gauss in H. unfold kernel_var.
    apply tintN_ext with (2 := H). intros x. unfold prof. rewrite white_dist2_alt, Rplus_0_l. reflexivity.
Qed.

Lemma tintN_rsum n m (f : nat -> pt -> R) (v : nat -> R) base :
  (forall k, (k < m)%nat -> is_tintN n (f k) base (v k)) ->
  is_tintN n (fun x => rsum m (fun k => f k x)) base (rsum m v).
Proof.
  induction m as [|m IH]; intros H; [apply tintN_zero|]. cbn [rsum].
  apply tintN_plus; [apply IH; intros; apply H; lia|apply H; lia].
Qed.

(** Coordinates of a point from its whitened coordinates. *)
Definition back (n : nat) (M W : mat) (i k : nat) : R := rsum n (fun l => M i l * W k l).

Lemma back_ok n M N W x a i : is_inverse n M N -> chol n N = Some W -> symmetric n N -> (i < n)%nat ->
  x i - a i = rsum n (fun k => back n M W i k * (mvec n W x k + - mvec n W a k)).
Proof.
  intros Hinv HW Hs Hi.
  transitivity (rsum n (fun j => ident i j * (x j - a j))).
  { symmetry. apply (rsum_ident_l n (fun j => x j - a j) i Hi). }
  transitivity (rsum n (fun j => rsum n (fun k => back n M W i k * (W k j * (x j - a j))))).
  - apply rsum_ext. intros j Hj. rewrite <- (proj1 (Hinv i j Hi Hj)).
    rewrite (rsum_ext n (fun k => back n M W i k * (W k j * (x j - a j))) (fun k => back n M W i k * W k j * (x j - a j))) by (intros; ring).
    rewrite rsum_scal_r. f_equal. unfold back.
    transitivity (rsum n (fun l => rsum n (fun k => M i l * (W k l * W k j)))).
    + apply rsum_ext. intros l Hl. rewrite rsum_scal. f_equal. symmetry. apply (chol_full n N W l j HW Hs Hl Hj).
    + rewrite rsum_swap. apply rsum_ext. intros k Hk. rewrite <- rsum_scal_r. apply rsum_ext. intros; ring.
  - rewrite rsum_swap. apply rsum_ext. intros k Hk. rewrite rsum_scal. f_equal. unfold mvec.
    rewrite <- rsum_opp, <- rsum_plus. apply rsum_ext. intros; ring.
Qed.

Lemma back_gram n M N W i j : symmetric n M -> is_inverse n M N -> chol n N = Some W -> symmetric n N -> (i < n)%nat -> (j < n)%nat ->
  rsum n (fun k => back n M W i k * back n M W j k) = M i j.
Proof.
  intros HsM Hinv HW Hs Hi Hj.
  pose proof (back_ok n M N W (fun l => M l j) (fun _ => 0) i Hinv HW Hs Hi) as H. cbv beta in H. rewrite Rminus_0_r in H.
  rewrite H. apply rsum_ext. intros k Hk. f_equal. unfold back, mvec.
  rewrite (rsum_ext n (fun l => W k l * 0) (fun _ => 0)) by (intros; ring). rewrite rsum_zero, Ropp_0, Rplus_0_r.
  apply rsum_ext. intros l Hl. rewrite (HsM j l Hj Hl). ring.
Qed.

Lemma one_moment1 d n M N W a base i : (i < n)%nat -> is_inverse n M N -> symmetric n N -> chol n N = Some W ->
  is_tintN n (fun x => (x i - a i) * prof d (white_dist2 n W x a)) base 0.
Proof.
  intros Hi Hinv Hs HW. destruct (chol_sound n N W HW) as [Hz Hp _].
  pose proof (tintN_rsum n n (fun k x => back n M W i k * ((mvec n W x k + - mvec n W a k) * prof d (white_dist2 n W x a))) (fun _ => 0) base) as H.
  cbv beta in H. rewrite rsum_zero in H.
  refine (tintN_ext _ _ _ _ _ _ (H _)).
  - intros x. rewrite (back_ok n M N W x a i Hinv HW Hs Hi), <- rsum_scal_r. apply rsum_ext. intros; ring.
  - intros k Hk. rewrite <- (Rmult_0_r (back n M W i k)). apply tintN_scal. apply kernel_moment1; auto.
Qed.

Lemma one_moment2 d n M N W a base i j : (i < n)%nat -> (j < n)%nat -> symmetric n M -> is_inverse n M N -> symmetric n N -> chol n N = Some W ->
  is_tintN n (fun x => (x i - a i) * (x j - a j) * prof d (white_dist2 n W x a)) base
    (kernel_var d n * M i j * (dist_norm d n / rprod n (fun i => W i i))).
Proof.
  intros Hi Hj HsM Hinv Hs HW. destruct (chol_sound n N W HW) as [Hz Hp _].
  set (Z := dist_norm d n / rprod n (fun i => W i i)).
  pose proof (tintN_rsum n n (fun k x => rsum n (fun l => back n M W i k * back n M W j l * ((mvec n W x k + - mvec n W a k) * (mvec n W x l + - mvec n W a l) * prof d (white_dist2 n W x a))))
     (fun k => rsum n (fun l => back n M W i k * back n M W j l * (ident k l * (kernel_var d n * Z)))) base) as H.
  assert (E : rsum n (fun k => rsum n (fun l => back n M W i k * back n M W j l * (ident k l * (kernel_var d n * Z)))) = kernel_var d n * M i j * Z).
  { rewrite (rsum_ext n _ (fun k => back n M W i k * back n M W j k * (kernel_var d n * Z))).
    - rewrite rsum_scal_r, (back_gram n M N W i j HsM Hinv HW Hs Hi Hj). ring.
    - intros k Hk. rewrite (rsum_ext n _ (fun l => ident k l * (back n M W i k * back n M W j l * (kernel_var d n * Z)))) by (intros; ring).
      apply (rsum_ident_l n (fun l => back n M W i k * back n M W j l * (kernel_var d n * Z)) k Hk). }
  rewrite E in H. refine (tintN_ext _ _ _ _ _ _ (H _)).
  - intros x. cbv beta. rewrite (back_ok n M N W x a i Hinv HW Hs Hi), (back_ok n M N W x a j Hinv HW Hs Hj).
    rewrite Rmult_assoc, <- rsum_scal_r. apply rsum_ext. intros k Hk.
    rewrite <- (rsum_scal_r n (prof d (white_dist2 n W x a))), <- rsum_scal. apply rsum_ext. intros l Hl. ring.
  - intros k Hk. apply (tintN_rsum n n (fun l x => back n M W i k * back n M W j l * ((mvec n W x k + - mvec n W a k) * (mvec n W x l + - mvec n W a l) * prof d (white_dist2 n W x a)))
      (fun l => back n M W i k * back n M W j l * (ident k l * (kernel_var d n * Z)))).
    intros l Hl. apply tintN_scal. apply kernel_moment2; auto.
Qed.

(* ---------------------------------------------------------------- densities *)
Lemma sumf_combine data ws (g : pt -> R -> R) : length ws = length data ->
  sumf (fun dw : pt * R => g (fst dw) (snd dw)) (combine data ws) = rsum (length data) (fun k => g (nth k data (fun _ => 0)) (nth k ws 0)).
Proof.
  revert ws. induction data as [|a data IH]; intros [|b ws] H; try discriminate; [reflexivity|].
  cbn [combine length]. rewrite sumf_cons, rsum_shift. cbn [nth fst snd]. rewrite IH by (simpl in H; congruence). reflexivity.
Qed.

Lemma sumf_snd_combine (data : list pt) (ws : list R) : length ws = length data -> sumf snd (combine data ws) = lsum ws.
Proof.
  intros H. unfold sumf. f_equal. revert ws H. induction data as [|x xs IH]; intros [|y ys] H; try discriminate; [reflexivity|].
  simpl. f_equal. apply IH. simpl in H; congruence.
Qed.
Lemma rsum_ws (data : list pt) (ws : list R) : length ws = length data -> rsum (length data) (fun k => nth k ws 0) = lsum ws.
Proof.
  intros H. rewrite <- (sumf_snd_combine data ws H). symmetry. apply (sumf_combine data ws (fun _ w => w) H).
Qed.

(** Integral of a function against the density from its integrals against the kernels. *)
Lemma density_moment n data ws d M K (prob : bool) base (phi : pt -> R) (v : pt -> R) : (1 <= n)%nat -> built_kde n data ws d M None K ->
  (forall N W a, is_inverse n M N -> symmetric n N -> chol n N = Some W ->
     is_tintN n (fun x => phi x * prof d (white_dist2 n W x a)) base (v a * (dist_norm d n / rprod n (fun i => W i i)))) ->
  exists f, kde_density K prob n None PNone = Ok f
    /\ is_tintN n (fun x => phi x * f x) base
         (mass prob ws * (rsum (length data) (fun k => nth k ws 0 * v (nth k data (fun _ => 0))) / rsum (length data) (fun k => nth k ws 0))).
Proof.
  intros Hn HB Hphi. destruct (built_inv _ _ _ _ _ _ _ HB) as (En & Ed & Hne & Er & Ew & Hl & Hnn & Hp & Et & Ek & Hs & Hpd).
  destruct (kernel_density_plain d n M data (Some ws) Hs Hpd) as [N [W [HN [HW [HsN [Hinv [Hd Hk]]]]]]].
  { intros w' E; injection E as <-; exact Hl. }
  pose proof (sqrt_mdet_pos n M Hs Hpd) as Hsq. pose proof (dist_norm_pos d n Hn) as Hdn.
  rewrite (density_as_kernel _ _ _ _ _ _ _ prob None HB). cbv zeta. rewrite Hk. cbn [bind].
  eexists. split; [reflexivity|].
  destruct (chol_sound n N W HW) as [Hz HpW _]. assert (HP : 0 < rprod n (fun i => W i i)) by (apply rprod_pos; exact HpW).
  set (Z := dist_norm d n / rprod n (fun i => W i i)) in *. assert (HZ : 0 < Z) by (apply Rdiv_lt_0_compat; assumption).
  assert (EZ : sqrt (Rabs (mdet n M)) * dist_norm d n = Z).
  { unfold Z. apply Rmult_eq_reg_l with (rprod n (fun i => W i i)); [|lra]. rewrite <- Rmult_assoc, Hd. field. lra. }
  rewrite EZ.
  assert (H : is_tintN n (fun x => sumf (fun dw : pt * R => snd dw * (phi x * prof d (white_dist2 n W x (fst dw)))) (combine data ws)) base
                (sumf (fun dw => snd dw * (v (fst dw) * Z)) (combine data ws))).
  { apply (tintN_sumf n (fun (dw : pt * R) x => snd dw * (phi x * prof d (white_dist2 n W x (fst dw)))) (fun dw => snd dw * (v (fst dw) * Z))).
    intros dw _. apply tintN_scal. apply (Hphi N W (fst dw)); assumption. }
  apply (tintN_scal n (mass prob ws / lsum ws / Z)) in H.
  rewrite (sumf_ext _ (fun dw : pt * R => snd dw * v (fst dw) * Z)) in H by (intros; ring). rewrite sumf_scal_r in H.
  rewrite (sumf_combine data ws (fun p w => w * v p) Hl) in H. rewrite (rsum_ws data ws Hl).
  replace (mass prob ws * (rsum (length data) (fun k => nth k ws 0 * v (nth k data (fun _ => 0))) / lsum ws))
    with (mass prob ws / lsum ws / Z * (rsum (length data) (fun k => nth k ws 0 * v (nth k data (fun _ => 0))) * Z)) by (field; lra).
  apply tintN_ext with (2 := H). intros x. rewrite scaled_val by exact Hp. unfold eval_numba.
  rewrite (sumf_ext (fun dw : pt * R => snd dw * (phi x * prof d (white_dist2 n W x (fst dw)))) (fun dw : pt * R => phi x * (prof d (white_dist2 n W x (fst dw)) * snd dw))) by (intros; ring).
  rewrite sumf_scal. field. lra.
Qed.

Lemma kernel_total d n N W a base : (1 <= n)%nat -> chol n N = Some W ->
  is_tintN n (fun x => prof d (white_dist2 n W x a)) base (dist_norm d n / rprod n (fun i => W i i)).
Proof. intros Hn HW. destruct (chol_sound n N W HW) as [Hz Hp _]. apply kernel_integral; auto. Qed.

(** C112 *)
Theorem density_mean n data ws d M K (prob : bool) base i : (i < n)%nat -> built_kde n data ws d M None K ->
  exists f, kde_density K prob n None PNone = Ok f
    /\ is_tintN n (fun x => x i * f x) base (mass prob ws * data_mean data ws i).
Proof.
  intros Hi HB. unfold data_mean.
  apply (density_moment n data ws d M K prob base (fun x => x i) (fun a => a i) ltac:(lia) HB).
  intros N W a Hinv Hs HW.
  pose proof (one_moment1 d n M N W a base i Hi Hinv Hs HW) as H1.
  pose proof (tintN_scal n (a i) _ _ _ (kernel_total d n N W a base ltac:(lia) HW)) as H2.
  pose proof (tintN_plus n _ _ _ _ _ H1 H2) as H. rewrite Rplus_0_l in H.
  apply tintN_ext with (2 := H). intros x. ring.
Qed.

(** About any point [m]. *)
Lemma density_second n data ws d M K (prob : bool) base i j (m : pt) : (i < n)%nat -> (j < n)%nat -> built_kde n data ws d M None K ->
  exists f, kde_density K prob n None PNone = Ok f
    /\ is_tintN n (fun x => (x i - m i) * (x j - m j) * f x) base
         (mass prob ws * (data_cov data ws m i j + kernel_var d n * M i j)).
Proof.
  intros Hi Hj HB. destruct (built_inv _ _ _ _ _ _ _ HB) as (En & Ed & Hne & Er & Ew & Hl & Hnn & Hp & Et & Ek & HsM & Hpd).
  destruct (density_moment n data ws d M K prob base (fun x => (x i - m i) * (x j - m j))
    (fun a => (a i - m i) * (a j - m j) + kernel_var d n * M i j) ltac:(lia) HB) as [f [Hf HI]].
  - intros N W a Hinv Hs HW.
    pose proof (tintN_scal n (a j - m j) _ _ _ (one_moment1 d n M N W a base i Hi Hinv Hs HW)) as H1.
    pose proof (tintN_scal n (a i - m i) _ _ _ (one_moment1 d n M N W a base j Hj Hinv Hs HW)) as H2.
    pose proof (tintN_scal n ((a i - m i) * (a j - m j)) _ _ _ (kernel_total d n N W a base ltac:(lia) HW)) as H3.
    pose proof (one_moment2 d n M N W a base i j Hi Hj HsM Hinv Hs HW) as H4.
    pose proof (tintN_plus n _ _ _ _ _ (tintN_plus n _ _ _ _ _ H1 H2) (tintN_plus n _ _ _ _ _ H3 H4)) as H.
    match type of H with is_tintN _ _ _ ?v => match goal with |- is_tintN _ _ _ ?w => replace w with v by ring end end.
    apply tintN_ext with (2 := H). intros x. cbv beta. ring.
  - exists f. split; [exact Hf|].
    match type of HI with is_tintN _ _ _ ?v => match goal with |- is_tintN _ _ _ ?w => replace w with v; [exact HI|] end end.
    f_equal. unfold data_cov. rewrite (rsum_ws data ws Hl).
    rewrite (rsum_ext _ _ (fun k => nth k ws 0 * ((nth k data (fun _ => 0) i - m i) * (nth k data (fun _ => 0) j - m j)) + nth k ws 0 * (kernel_var d n * M i j))) by (intros; ring).
    rewrite rsum_plus, rsum_scal_r, (rsum_ws data ws Hl). field. lra.
Qed.

(** C113 *)
Theorem density_covariance n data ws d M K (prob : bool) base i j : (i < n)%nat -> (j < n)%nat -> built_kde n data ws d M None K ->
  exists f, kde_density K prob n None PNone = Ok f
    /\ is_tintN n (fun x => (x i - data_mean data ws i) * (x j - data_mean data ws j) * f x) base
         (mass prob ws * (data_cov data ws (data_mean data ws) i j + kernel_var d n * M i j)).
Proof. apply density_second. Qed.

Lemma wmean_data data ws i : length ws = length data -> wmean (combine data ws) i = data_mean data ws i.
Proof.
  intros H. unfold wmean, data_mean. rewrite (sumf_snd_combine data ws H), (rsum_ws data ws H).
  rewrite (sumf_combine data ws (fun p w => w * p i) H). reflexivity.
Qed.

Lemma rsum_lsum (g : R -> R) ws : rsum (length ws) (fun k => g (nth k ws 0)) = sumf g ws.
Proof.
  induction ws as [|a ws IH]; [reflexivity|]. cbn [length]. rewrite rsum_shift, sumf_cons. cbn [nth]. rewrite IH. reflexivity.
Qed.

Lemma rsum_lsum_id ws : rsum (length ws) (fun k => nth k ws 0) = lsum ws.
Proof. rewrite (rsum_lsum (fun x => x) ws). unfold sumf. rewrite map_id. reflexivity. Qed.

Lemma inv_neff_alt ws : inv_neff ws = sumsq ws / (lsum ws * lsum ws).
Proof. unfold inv_neff. rewrite (rsum_lsum (fun x => x * x) ws), rsum_lsum_id. reflexivity. Qed.

Lemma np_cov_data data ws C i j : length ws = length data -> 0 < lsum ws -> np_cov (combine data ws) = Some C ->
  inv_neff ws < 1 /\ C i j = data_cov data ws (data_mean data ws) i j / (1 - inv_neff ws).
Proof.
  intros Hl Hp HC. unfold np_cov in HC. destruct (Rleb_spec (cov_fact (combine data ws)) 0) as [|Hf]; [discriminate|]. injection HC as <-.
  assert (Es : sumf (fun dw : pt * R => snd dw * snd dw) (combine data ws) = sumsq ws).
  { rewrite (sumf_combine data ws (fun _ w => w * w) Hl), <- Hl. apply (rsum_lsum (fun x => x * x)). }
  assert (Ef : cov_fact (combine data ws) = lsum ws * (1 - inv_neff ws)).
  { unfold cov_fact. rewrite Es, (sumf_snd_combine data ws Hl), inv_neff_alt. field. lra. }
  assert (Hi : inv_neff ws < 1) by (rewrite Ef in Hf; nra). split; [exact Hi|].
  rewrite Ef. rewrite (sumf_combine data ws (fun p w => w * (p i - wmean (combine data ws) i) * (p j - wmean (combine data ws) j)) Hl).
  rewrite !(wmean_data data ws _ Hl). unfold data_cov. rewrite (rsum_ws data ws Hl).
  rewrite (rsum_ext _ _ (fun k => nth k ws 0 * ((nth k data (fun _ => 0) i - data_mean data ws i) * (nth k data (fun _ => 0) j - data_mean data ws j)))) by (intros; ring).
  field. split; apply Rgt_not_eq; lra.
Qed.

Theorem default_covariance n data w ws b h d K (prob : bool) base i j : (i < n)%nat -> (j < n)%nat -> weights_given w data ws ->
  b = BwNone /\ h = Rpower (/ inv_neff ws) (- (1 / (INR n + 4))) \/ b = BwAtom (BNum h) /\ h <> 0 ->
  ~ degenerate n data ws ->
  kde_init n data w b false None d None None None = Ok K -> kd_kernel K <> None ->
  exists f, kde_density K prob n None PNone = Ok f
    /\ is_tintN n (fun x => (x i - data_mean data ws i) * (x j - data_mean data ws j) * f x) base
         (mass prob ws * (data_cov data ws (data_mean data ws) i j * (1 + kernel_var d n * (h * h) / (1 - inv_neff ws))))
    /\ inv_neff ws < 1.
Proof.
  intros Hi Hj Hg Hb Hdeg HK Hk.
  destruct (kde_weights_of _ _ _ _ _ _ _ _ _ _ _ _ Hg HK) as (H1 & H2 & Hd & H4 & Ewl & Hl & Hnn & Hp & H9).
  destruct (kde_init_inv _ _ _ _ _ _ _ _ _ _ _ HK) as [bw [_ [_ [_ [_ [Ew [En [Ebw Ek]]]]]]]].
  destruct (np_cov (wdata_of data (kd_weights K))) as [C|] eqn:EC; [|rewrite Ek in Hk; contradiction Hk; reflexivity].
  unfold wdata_of in EC. rewrite Ewl in EC.
  assert (EN : kd_neff K = / inv_neff ws).
  { rewrite En, inv_neff_alt. unfold neff_of. destruct (kd_weights K) as [l|] eqn:Eo.
    - cbn [wlist] in Ewl. subst l. assert (0 < sumsq ws).
      { assert (Hz : 0 <= sumsq ws) by (apply sumf_nonneg; intros; nra). destruct Hz as [|E0]; [assumption|exfalso].
        assert (lsum ws = 0); [|lra]. rewrite <- (map_id ws). apply (sumf_zero (fun x => x)). intros x Hx.
        pose proof (sumf_ge_term (fun x => x * x) ws x ltac:(intros; nra) Hx) as Hge. fold (sumsq ws) in Hge. nra. }
      field. split; lra.
    - cbn [wlist] in Ewl. change (map (fun _ => 1) data) with (ones data) in Ewl. rewrite <- Ewl, lsum_ones.
      assert (Eq : sumsq (ones data) = INR (length data)).
      { unfold sumsq, ones. rewrite sumf_map. rewrite sumf_const. ring. }
      rewrite Eq. field. apply not_0_INR. destruct data; [contradiction Hd; reflexivity|discriminate]. }
  assert (Ebh : bw = fun _ _ => h).
  { destruct Hb as [[-> Eh]|[-> Hh]].
    - cbn in Ebw. injection Ebw as <-. unfold scott. rewrite EN, <- Eh. reflexivity.
    - cbn in Ebw. injection Ebw as <-. reflexivity. }
  assert (Hh : 0 < h * h).
  { destruct Hb as [[_ Eh]|[_ Hh]]; [rewrite Eh; pose proof (exp_pos (- (1 / (INR n + 4)) * ln (/ inv_neff ws))) as He; fold (Rpower (/ inv_neff ws) (- (1 / (INR n + 4)))) in He; nra|].
    destruct (Rtotal_order h 0) as [|[|]]; [nra|contradiction|nra]. }
  set (M := kernel_matrix C bw) in *.
  pose proof (np_cov_sym n _ _ EC) as HCs.
  assert (HMs : symmetric n M) by (intros a c Ha Hc; unfold M, kernel_matrix; rewrite Ebh, (HCs a c Ha Hc); reflexivity).
  assert (HMp : posdef n M).
  { unfold M, kernel_matrix. rewrite Ebh. apply posdef_scale_const; [exact Hh|]. apply (np_cov_posdef n data ws C Hl Hnn Hp EC). exact Hdeg. }
  assert (HB : built_kde n data ws d M None K).
  { split; [exists w, b, false, None, None, None; split; assumption|]. split; [exact Ek|]. split; assumption. }
  destruct (density_covariance n data ws d M K prob base i j Hi Hj HB) as [f [Hf HI]]. exists f. split; [exact Hf|].
  destruct (np_cov_data data ws C i j Hl Hp EC) as [Hn1 EC']. split; [|exact Hn1].
  match type of HI with is_tintN _ _ _ ?v => match goal with |- is_tintN _ _ _ ?u => replace u with v; [exact HI|] end end.
  unfold M, kernel_matrix. rewrite Ebh, EC'. field. lra.
Qed.

(** The distributions by themselves. *)
Theorem evaluate_moments d n base i j : (i < n)%nat -> (j < n)%nat ->
  is_tintN n (fun x => x i * dist_evaluate d n x) base 0
  /\ is_tintN n (fun x => x i * x j * dist_evaluate d n x) base (if Nat.eqb i j then kernel_var d n else 0).
Proof.
  intros Hi Hj. pose proof (dist_norm_pos d n ltac:(lia)) as HN.
  assert (Hz : forall i j, (j < i)%nat -> ident i j = 0) by (intros; apply ident_neq; lia).
  assert (Hp : forall i, (i < n)%nat -> 0 < ident i i) by (intros; rewrite ident_refl; lra).
  assert (E : rprod n (fun i => ident i i) = 1).
  { clear. induction n as [|n IH]; simpl; [reflexivity|]. rewrite IH, ident_refl. ring. }
  assert (Ew : forall x, white_dist2 n ident x (fun _ => 0) = norm2 n x).
  { intros x. unfold white_dist2, norm2. apply rsum_ext; intros k Hk.
    rewrite (rsum_ident_l n x k Hk), (rsum_ident_l n (fun _ => 0) k Hk). ring. }
  assert (Em : forall x k, (k < n)%nat -> mvec n ident x k + - mvec n ident (fun _ => 0) k = x k).
  { intros x k Hk. unfold mvec. rewrite (rsum_ident_l n x k Hk), (rsum_ident_l n (fun _ => 0) k Hk). ring. }
  split.
  - pose proof (tintN_scal n (/ dist_norm d n) _ _ _ (kernel_moment1 d n ident (fun _ => 0) base i Hi Hz Hp)) as H.
    rewrite Rmult_0_r in H. apply tintN_ext with (2 := H). intros x. rewrite Ew, Em by exact Hi. unfold dist_evaluate. field. lra.
  - pose proof (tintN_scal n (/ dist_norm d n) _ _ _ (kernel_moment2 d n ident (fun _ => 0) base i j Hi Hj Hz Hp)) as H.
    rewrite E in H.
    replace (if Nat.eqb i j then kernel_var d n else 0) with (/ dist_norm d n * (ident i j * (kernel_var d n * (dist_norm d n / 1)))).
    + apply tintN_ext with (2 := H). intros x. rewrite Ew, !Em by assumption. unfold dist_evaluate. field. lra.
    + unfold ident. destruct (Nat.eqb i j); field; lra.
Qed.

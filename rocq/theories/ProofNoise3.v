(** The noise of the kernels in several dimensions. *)
From Coquelicot Require Import Coquelicot.
From Coq Require Import FunctionalExtensionality.
From Verif Require Import Base ModelLinAlg SpecLinAlg ProofLinAlg ModelKernels SpecIntegral SpecMoments ProofIntegral ProofWallis ProofKernels ProofMoments ModelInterp ProofInterp ModelResample ProofResample3 SpecNoise ProofNoise ProofNoise2.
Open Scope R_scope.

(** * Parabola *)
Lemma line_square d m : finite d = true -> is_tint (fun t => t * t * dist_evaluate d 1 (fun _ => t)) m -> m = kernel_var d 1.
Proof.
  intros Hd H. destruct (evaluate_moments d 1 (fun _ => 0) 0 0 ltac:(lia) ltac:(lia)) as [_ [g [Hg HI]]]. cbn [Nat.eqb] in HI.
  apply (tint_unique _ _ _ H). apply tint_ext with (2 := HI). intros t. rewrite <- Hg. rewrite upd_same. reflexivity.
Qed.
Lemma parabola_square n i r : uniform_mean 3 (-1) 1 (fun u => dist_sample Parabola n (with_sym r i u) i * dist_sample Parabola n (with_sym r i u) i) (1 / 5).
Proof.
  destruct (parabola_law n i r (fun t => t * t)) as [m [Hm Ht]]; [intros; cont|].
  apply line_square in Ht; [|reflexivity]. subst m. replace (1 / 5) with (kernel_var Parabola 1); [exact Hm|]. unfold kernel_var. cbn [INR]. field.
Qed.
Lemma parabola_spread : forall n i r base, (2 <= n)%nat -> (i < n)%nat ->
  uniform_mean 3 (-1) 1 (fun u => dist_sample Parabola n (with_sym r i u) i * dist_sample Parabola n (with_sym r i u) i) (1 / 5)
  /\ is_tintN n (fun x => x i * x i * dist_evaluate Parabola n x) base (1 / (INR n + 4)) /\ 1 / (INR n + 4) < 1 / 5.
Proof.
  intros n i r base Hn Hi. split; [apply parabola_square|]. split.
  - pose proof (proj2 (evaluate_moments Parabola n base i i Hi Hi)) as H. rewrite Nat.eqb_refl in H. unfold kernel_var in H. unfold Rdiv. rewrite Rmult_1_l. exact H.
  - apply le_INR in Hn. cbn [INR] in Hn. unfold Rdiv. rewrite !Rmult_1_l. apply Rinv_lt_contravar; nra.
Qed.

(** * Functions of one or two of the numbers *)
Lemma rprod_const1 n (f : nat -> R) : (forall i, (i < n)%nat -> f i = 1) -> rprod n f = 1.
Proof. induction n as [|n IH]; intros H; cbn [rprod]; [reflexivity|]. rewrite IH by (intros; apply H; lia). rewrite H by lia. ring. Qed.
Lemma rprod_at n k a : (k < n)%nat -> rprod n (fun i => if Nat.eqb i k then a else 1) = a.
Proof.
  induction n as [|n IH]; intros Hk; [lia|]. cbn [rprod]. destruct (Nat.eqb_spec n k) as [->|Hne].
  - rewrite rprod_const1; [ring|]. intros i Hi. destruct (Nat.eqb_spec i k); [lia|reflexivity].
  - rewrite IH by lia. ring.
Qed.
Lemma rprod_mul n f g : rprod n (fun i => f i * g i) = rprod n f * rprod n g.
Proof. induction n as [|n IH]; cbn [rprod]; [ring|]. rewrite IH. ring. Qed.
Lemma rprod_at2 n i j a b : (i < n)%nat -> (j < n)%nat -> i <> j -> rprod n (fun k => if Nat.eqb k i then a else if Nat.eqb k j then b else 1) = a * b.
Proof.
  intros Hi Hj Hij. rewrite (rprod_ext n _ (fun k => (if Nat.eqb k i then a else 1) * (if Nat.eqb k j then b else 1))).
  - rewrite rprod_mul, !rprod_at by assumption. reflexivity.
  - intros k _. destruct (Nat.eqb_spec k i), (Nat.eqb_spec k j); subst; try (contradiction Hij; reflexivity); ring.
Qed.
Lemma is_RInt_one lo hi : is_RInt (fun _ : R => 1) lo hi ((hi - lo) * 1).
Proof. exact (is_RInt_const (V := R_NormedModule) lo hi 1). Qed.
Lemma mean_one n lo hi k (h : R -> R) (m : R) : lo < hi -> (k < n)%nat -> is_RInt h lo hi ((hi - lo) * m) -> uniform_mean n lo hi (fun u => h (u k)) m.
Proof.
  intros Hl Hk H.
  assert (A : uniform_mean n lo hi (fun u => rprod n (fun i => (if Nat.eqb i k then h else fun _ => 1) (u i))) (rprod n (fun i => if Nat.eqb i k then m else 1))).
  { apply uniform_mean_of; [exact Hl|]. apply (mean_rprod n lo hi (fun i => if Nat.eqb i k then h else fun _ => 1)). intros i _. destruct (Nat.eqb i k); [exact H|apply is_RInt_one]. }
  rewrite rprod_at in A by exact Hk. apply uniform_mean_ext with (2 := A). intros u _.
  rewrite (rprod_ext n _ (fun i => if Nat.eqb i k then h (u k) else 1)); [apply rprod_at, Hk|]. intros i _. destruct (Nat.eqb_spec i k); [subst; reflexivity|reflexivity].
Qed.
Lemma mean_two n lo hi i j (h : R -> R) (m : R) : lo < hi -> (i < n)%nat -> (j < n)%nat -> i <> j -> is_RInt h lo hi ((hi - lo) * m) ->
  uniform_mean n lo hi (fun u => h (u i) * h (u j)) (m * m).
Proof.
  intros Hl Hi Hj Hij H.
  assert (A : uniform_mean n lo hi (fun u => rprod n (fun k => (if Nat.eqb k i then h else if Nat.eqb k j then h else fun _ => 1) (u k)))
    (rprod n (fun k => if Nat.eqb k i then m else if Nat.eqb k j then m else 1))).
  { apply uniform_mean_of; [exact Hl|]. apply (mean_rprod n lo hi (fun k => if Nat.eqb k i then h else if Nat.eqb k j then h else fun _ => 1)).
    intros k _. destruct (Nat.eqb k i); [exact H|]. destruct (Nat.eqb k j); [exact H|apply is_RInt_one]. }
  rewrite rprod_at2 in A by assumption. apply uniform_mean_ext with (2 := A). intros u _.
  rewrite (rprod_ext n _ (fun k => if Nat.eqb k i then h (u i) else if Nat.eqb k j then h (u j) else 1)); [apply rprod_at2; assumption|].
  intros k _. destruct (Nat.eqb_spec k i); [subst; reflexivity|]. destruct (Nat.eqb_spec k j); [subst; reflexivity|reflexivity].
Qed.

(** * Directions *)
Definition share (n : nat) (z : pt) (k : nat) : R := z k * z k / norm2 n z.
Lemma norm2_pos n z k : (k < n)%nat -> z k <> 0 -> 0 < norm2 n z.
Proof.
  intros Hk Hz. unfold norm2. assert (0 < z k * z k) by (destruct (Rdichotomy _ _ Hz); nra).
  apply Rlt_le_trans with (z k * z k); [assumption|]. apply (rsum_ge_term n (fun k => z k * z k)); [intros; nra|exact Hk].
Qed.
Lemma share_nonneg n z k : 0 < norm2 n z -> 0 <= share n z k.
Proof. intros H. unfold share, Rdiv. apply Rmult_le_pos; [nra|]. left. apply Rinv_0_lt_compat, H. Qed.
Lemma share_sum n z : 0 < norm2 n z -> rsum n (share n z) = 1.
Proof.
  intros H. unfold share, Rdiv. rewrite (rsum_ext n _ (fun k => / norm2 n z * (z k * z k))) by (intros; ring). rewrite rsum_scal.
  change (rsum n (fun k => z k * z k)) with (norm2 n z). field. lra.
Qed.
Lemma scaled_norm2 n z (a : nat -> R) : 0 < norm2 n z -> norm2 n (fun k => a k * z k / sqrt (norm2 n z)) = rsum n (fun k => share n z k * (a k * a k)).
Proof.
  intros H. unfold norm2 at 1. apply rsum_ext. intros k _. unfold share.
  assert (Hs : sqrt (norm2 n z) * sqrt (norm2 n z) = norm2 n z) by (apply sqrt_sqrt; lra). assert (0 < sqrt (norm2 n z)) by (apply sqrt_lt_R0, H).
  rewrite <- Hs at 3. field. lra.
Qed.
Lemma mean_norm2 n z (h : R -> R) (m : R) : 0 < norm2 n z -> is_RInt (fun u => h u * h u) 0 1 m ->
  uniform_mean n 0 1 (fun u => norm2 n (fun k => h (u k) * z k / sqrt (norm2 n z))) m.
Proof.
  intros Hz H. replace m with (rsum n (fun k => share n z k * m)).
  2:{ rewrite (rsum_ext n _ (fun k => m * share n z k)) by (intros; ring). rewrite rsum_scal, share_sum by exact Hz. ring. }
  apply uniform_mean_ext with (fun u => rsum n (fun k => share n z k * (h (u k) * h (u k)))).
  - intros u _. symmetry. apply (scaled_norm2 n z (fun k => h (u k)) Hz).
  - apply (uniform_mean_rsum n 0 1 n (fun k u => share n z k * (h (u k) * h (u k))) (fun k => share n z k * m)). intros k Hk.
    apply uniform_mean_scal. apply (mean_one n 0 1 k (fun t => h t * h t)); [lra|exact Hk|]. replace ((1 - 0) * m) with m by ring. exact H.
Qed.
Lemma kernel_norm2 d n base : (1 <= n)%nat -> is_tintN n (fun x => norm2 n x * dist_evaluate d n x) base (INR n * kernel_var d n).
Proof.
  intros Hn. replace (INR n * kernel_var d n) with (rsum n (fun _ => kernel_var d n)) by apply rsum_const.
  apply tintN_ext with (fun x => rsum n (fun k => x k * x k * dist_evaluate d n x)).
  - intros x. rewrite (rsum_ext n _ (fun k => dist_evaluate d n x * (x k * x k))) by (intros; ring). rewrite rsum_scal. unfold norm2. ring.
  - apply (tintN_rsum n n (fun k x => x k * x k * dist_evaluate d n x)). intros k Hk. pose proof (proj2 (evaluate_moments d n base k k Hk Hk)) as H.
    rewrite Nat.eqb_refl in H. exact H.
Qed.

(** * Triweight *)
Lemma rho_square : exists v : R, is_RInt (fun u => rho u * rho u) 0 1 v /\ Rabs (v - 1 / 9) <= 2 / 999.
Proof.
  destruct (rho_mean (fun x => x * x) 2) as [I [J [HI [HJ HB]]]].
  - intros; cont.
  - intros x y Hx Hy. replace (x * x - y * y) with ((x + y) * (x - y)) by ring. rewrite Rabs_mult. apply Rmult_le_compat_r; [apply Rabs_pos|].
    rewrite Rabs_pos_eq by lra. lra.
  - rewrite tab_m_999 in HB. exists I. split; [exact HI|]. replace (1 / 9) with J; [exact HB|].
    set (F := fun x => 70 / 32 * (x ^ 3 / 3 - 3 * x ^ 5 / 5 + 3 * x ^ 7 / 7 - x ^ 9 / 9)).
    assert (HF : is_RInt (fun x => tri_pdf x * (x * x)) 0 1 (F 1 - F 0)).
    { apply (ftc F).
      - intros x. unfold F, tri_pdf. auto_derive; [exact Logic.I|]. cbn [INR Init.Nat.pred pow]. field.
      - intros; cont. apply tri_pdf_cont. }
    rewrite (is_RInt_eq _ _ _ _ _ HJ HF). unfold F. field.
Qed.
Lemma triweight_spread : forall n r base, (2 <= n)%nat -> (exists k, (k < n)%nat /\ r_norm r k <> 0) ->
  exists v, uniform_mean n 0 1 (fun u => norm2 n (dist_sample Triweight n (with_unif r u))) v /\ Rabs (v - 1 / 9) <= 2 / 999
  /\ is_tintN n (fun x => norm2 n x * dist_evaluate Triweight n x) base (INR n / (INR n + 8)) /\ v < INR n / (INR n + 8).
Proof.
  intros n r base Hn [k [Hk Hz]]. pose proof (norm2_pos n _ k Hk Hz) as Hp. destruct rho_square as [v [Hv HB]]. exists v.
  split; [|split; [exact HB|split]].
  - exact (mean_norm2 n (r_norm r) rho v Hp Hv).
  - apply (kernel_norm2 Triweight n base). lia.
  - apply Rcomplements.Rabs_le_between in HB. apply le_INR in Hn. cbn [INR] in Hn. apply Rle_lt_trans with (1 / 9 + 2 / 999); [lra|].
    apply Rlt_le_trans with (1 / 5); [lra|]. apply Rmult_le_reg_r with (INR n + 8); [lra|]. unfold Rdiv. rewrite (Rmult_assoc (INR n)), Rinv_l by lra. lra.
Qed.

(** The noise of the triweight kernel in one dimension. *)
From Coquelicot Require Import Coquelicot.
From Coq Require Import FunctionalExtensionality.
From Verif Require Import Base ModelLinAlg SpecLinAlg ProofLinAlg ModelKernels SpecIntegral ProofIntegral ProofWallis ProofKernels ProofMoments ModelInterp ProofInterp ModelResample ProofResample3 SpecNoise ProofNoise.
Open Scope R_scope.

Definition tri_pdf (x : R) : R := 70 / 32 * (1 - x * x) ^ 3.
Definition rho (u : R) : R := res_get (triweight_inverse u).
Lemma tri_pdf_cont x : continuous tri_pdf x.
Proof. apply (cont_of_derive tri_pdf (70 / 32 * (3 * (1 - x * x) ^ 2 * (- (2 * x))))). unfold tri_pdf. auto_derive; [exact I|]. ring. Qed.
Lemma tri_pdf_nonneg x : -1 <= x <= 1 -> 0 <= tri_pdf x.
Proof. intros H. unfold tri_pdf. apply Rmult_le_pos; [lra|]. apply pow_le. nra. Qed.
Lemma tri_cdf_derive x : is_derive triweight_cdf x (tri_pdf x).
Proof. apply is_derive_Reals, triweight_cdf_deriv. Qed.
Lemma tri_cdf_le a b : 0 <= a -> a <= b -> b <= 1 -> triweight_cdf a <= triweight_cdf b.
Proof. intros Ha [Hab| ->] Hb; [left; apply triweight_cdf_incr; assumption|lra]. Qed.
Lemma is_RInt_le_abs (f h : R -> R) a b I H : a <= b -> is_RInt f a b I -> is_RInt h a b H -> (forall x, a < x < b -> Rabs (f x) <= h x) -> Rabs I <= H.
Proof.
  intros Hab HI HH Hx. apply Rabs_le. split.
  - pose proof (is_RInt_opp (V := R_NormedModule) _ _ _ _ HH) as HO. apply (is_RInt_le (fun x => - h x) f a b (- H) I Hab); [exact HO|exact HI|].
    intros x Hi. specialize (Hx x Hi). apply Rcomplements.Rabs_le_between in Hx. lra.
  - apply (is_RInt_le f h a b I H Hab HI HH). intros x Hi. specialize (Hx x Hi). apply Rcomplements.Rabs_le_between in Hx. lra.
Qed.
Definition seg_lin (i : nat) (u : R) : R :=
  tab_x tab_m i + (tab_x tab_m (S i) - tab_x tab_m i) / (tab_y tab_m (S i) - tab_y tab_m i) * (u - tab_y tab_m i).
Lemma rho_seg i u : (i < tab_m)%nat -> tab_y tab_m i <= u <= tab_y tab_m (S i) -> rho u = seg_lin i u.
Proof.
  intros Hi Hu. unfold rho, triweight_inverse. pose proof tab_m_pos as Hm. pose proof (tab_y_incr _ Hm) as Hy.
  destruct (tab_0 _ Hm) as [_ E0]. destruct (tab_1 _ Hm) as [_ E1].
  assert (0 <= u <= 1).
  { rewrite <- E0, <- E1. split.
    - apply Rle_trans with (2 := proj1 Hu). apply (incr_nondecr _ _ Hy); lia.
    - apply Rle_trans with (1 := proj2 Hu). apply (incr_nondecr _ _ Hy); lia. }
  rewrite inverse_total by assumption. cbn [res_get]. apply interp_in; assumption.
Qed.
Lemma rho_accuracy x : 0 <= x <= 1 -> Rabs (rho (triweight_cdf x) - x) <= / INR tab_m.
Proof.
  intros Hx. destruct (inverse_accuracy tab_m _ x tab_m_pos Hx eq_refl) as [r [Er Hr]]. unfold rho, triweight_inverse. rewrite Er. exact Hr.
Qed.
Lemma rho_range u : 0 <= u <= 1 -> 0 <= rho u <= 1.
Proof. intros Hu. destruct (inverse_range tab_m u tab_m_pos Hu) as [r [Er Hr]]. unfold rho, triweight_inverse. rewrite Er. exact Hr. Qed.
Lemma tab_x_le i : (i <= tab_m)%nat -> 0 <= tab_x tab_m i <= 1.
Proof. intros H. apply tab_x_range; [apply tab_m_pos|exact H]. Qed.

Lemma seg_mean (g : R -> R) L i : (forall x, continuous g x) -> (forall x y, 0 <= x <= 1 -> 0 <= y <= 1 -> Rabs (g x - g y) <= L * Rabs (x - y)) -> (i < tab_m)%nat ->
  exists I J : R, is_RInt (fun u => g (rho u)) (tab_y tab_m i) (tab_y tab_m (S i)) I
  /\ is_RInt (fun x => tri_pdf x * g x) (tab_x tab_m i) (tab_x tab_m (S i)) J
  /\ Rabs (I - J) <= L / INR tab_m * (tab_y tab_m (S i) - tab_y tab_m i).
Proof.
  intros Hg HL Hi. pose proof tab_m_pos as Hm.
  pose proof (tab_y_incr _ Hm i (S i) ltac:(lia) ltac:(lia)) as Hy. pose proof (tab_x_incr _ Hm i (S i) ltac:(lia) ltac:(lia)) as Hx.
  pose proof (tab_x_le i ltac:(lia)) as R0. pose proof (tab_x_le (S i) ltac:(lia)) as R1.
  assert (Cl : forall u, continuous (fun u => g (seg_lin i u)) u).
  { intros u. apply (continuous_comp (seg_lin i) g); [|apply Hg]. unfold seg_lin. cont. }
  assert (Cc : forall x, continuous triweight_cdf x) by (intros x; apply (cont_of_derive _ _ _ (tri_cdf_derive x))).
  set (I := RInt (fun u => g (seg_lin i u)) (tab_y tab_m i) (tab_y tab_m (S i))).
  assert (HI : is_RInt (fun u => g (seg_lin i u)) (tab_y tab_m i) (tab_y tab_m (S i)) I).
  { apply (RInt_correct (V := R_CompleteNormedModule)). apply (ex_RInt_continuous (V := R_CompleteNormedModule)). intros; apply Cl. }
  destruct (ex_RInt_continuous (V := R_CompleteNormedModule) (fun x => tri_pdf x * g x) (tab_x tab_m i) (tab_x tab_m (S i))) as [J HJ].
  { intros; cont; [apply tri_pdf_cont|apply Hg]. }
  exists I, J. split; [|split; [exact HJ|]].
  - apply is_RInt_ext with (2 := HI). intros u Hu. rewrite Rmin_left, Rmax_right in Hu by lra. rewrite (rho_seg i) by (assumption || lra). reflexivity.
  - assert (HC : is_RInt (fun x => tri_pdf x * g (seg_lin i (triweight_cdf x))) (tab_x tab_m i) (tab_x tab_m (S i)) I).
    { unfold I. rewrite !tab_y_cdf by exact Hm.
      apply (is_RInt_comp (V := R_CompleteNormedModule) (fun u => g (seg_lin i u)) triweight_cdf tri_pdf); intros x Hxx.
      - apply Cl.
      - split; [apply tri_cdf_derive|apply tri_pdf_cont]. }
    assert (HF : is_RInt tri_pdf (tab_x tab_m i) (tab_x tab_m (S i)) (tab_y tab_m (S i) - tab_y tab_m i)).
    { rewrite !tab_y_cdf by exact Hm. apply ftc; [apply tri_cdf_derive|apply tri_pdf_cont]. }
    pose proof (is_RInt_minus (V := R_NormedModule) _ _ _ _ _ _ HC HJ) as HD.
    pose proof (is_RInt_scal (V := R_NormedModule) _ _ _ (L / INR tab_m) _ HF) as HS.
    apply (is_RInt_le_abs _ _ _ _ _ _ (Rlt_le _ _ Hx) HD HS). intros x Hxx.
    change (Rabs (tri_pdf x * g (seg_lin i (triweight_cdf x)) - tri_pdf x * g x) <= L / INR tab_m * tri_pdf x).
    assert (Hu : tab_y tab_m i <= triweight_cdf x <= tab_y tab_m (S i)).
    { rewrite !tab_y_cdf by exact Hm. split; apply tri_cdf_le; lra. }
    rewrite <- (rho_seg i) by assumption.
    assert (Hr : 0 <= rho (triweight_cdf x) <= 1).
    { apply rho_range. rewrite <- triweight_cdf_0 at 1. rewrite <- triweight_cdf_1. split; apply tri_cdf_le; lra. }
    pose proof (HL (rho (triweight_cdf x)) x Hr ltac:(lra)) as H1. pose proof (rho_accuracy x ltac:(lra)) as H2. pose proof (tri_pdf_nonneg x ltac:(lra)) as H3.
    assert (HL0 : 0 <= L).
    { specialize (HL 1 0 ltac:(lra) ltac:(lra)). rewrite Rminus_0_r, Rabs_R1 in HL. pose proof (Rabs_pos (g 1 - g 0)). lra. }
    replace (tri_pdf x * g (rho (triweight_cdf x)) - tri_pdf x * g x) with (tri_pdf x * (g (rho (triweight_cdf x)) - g x)) by ring.
    rewrite Rabs_mult, (Rabs_pos_eq _ H3), Rmult_comm. apply Rmult_le_compat_r; [exact H3|].
    apply Rle_trans with (1 := H1). apply Rmult_le_compat_l; assumption.
Qed.
Lemma rho_mean (g : R -> R) L : (forall x, continuous g x) -> (forall x y, 0 <= x <= 1 -> 0 <= y <= 1 -> Rabs (g x - g y) <= L * Rabs (x - y)) ->
  exists I J : R, is_RInt (fun u => g (rho u)) 0 1 I /\ is_RInt (fun x => tri_pdf x * g x) 0 1 J /\ Rabs (I - J) <= L / INR tab_m.
Proof.
  intros Hg HL. pose proof tab_m_pos as Hm. destruct (tab_0 _ Hm) as [X0 Y0]. destruct (tab_1 _ Hm) as [X1 Y1].
  assert (A : forall j, (j <= tab_m)%nat -> exists I J : R, is_RInt (fun u => g (rho u)) (tab_y tab_m 0) (tab_y tab_m j) I
    /\ is_RInt (fun x => tri_pdf x * g x) (tab_x tab_m 0) (tab_x tab_m j) J /\ Rabs (I - J) <= L / INR tab_m * (tab_y tab_m j - tab_y tab_m 0)).
  { induction j as [|j IH]; intros Hj.
    - exists 0, 0. split; [apply (is_RInt_point (V := R_NormedModule))|]. split; [apply (is_RInt_point (V := R_NormedModule))|]. rewrite !Rminus_eq_0, Rabs_R0. lra.
    - destruct IH as [I [J [HI [HJ HB]]]]; [lia|]. destruct (seg_mean g L j Hg HL) as [I' [J' [HI' [HJ' HB']]]]; [lia|].
      exists (I + I'), (J + J'). split; [exact (is_RInt_Chasles _ _ _ _ _ _ HI HI')|]. split; [exact (is_RInt_Chasles _ _ _ _ _ _ HJ HJ')|].
      replace (I + I' - (J + J')) with ((I - J) + (I' - J')) by ring. apply Rle_trans with (1 := Rabs_triang _ _). lra. }
  destruct (A tab_m (le_n _)) as [I [J [HI [HJ HB]]]]. rewrite X0, X1, Y0, Y1 in *. exists I, J. split; [exact HI|]. split; [exact HJ|]. lra.
Qed.
Lemma sign_of z : z <> 0 -> exists s, (s = 1 \/ s = -1) /\ forall a, a * z / sqrt (0 + z * z) = s * a.
Proof.
  intros Hz. rewrite Rplus_0_l. change (z * z) with (Rsqr z). rewrite sqrt_Rsqr_abs. unfold Rabs. destruct (Rcase_abs z).
  - exists (-1). split; [right; reflexivity|]. intros a. field. lra.
  - exists 1. split; [left; reflexivity|]. intros a. field. lra.
Qed.
Lemma tab_m_999 : INR tab_m = 999.
Proof. unfold tab_m. rewrite INR_IZR_INZ. f_equal. Qed.
Lemma triweight_law r (g : R -> R) L : (forall x, continuous g x) -> lipschitz g L -> r_norm r 0%nat <> 0 ->
  exists a b m, uniform_mean 1 0 1 (fun u => g (dist_sample Triweight 1 (with_unif r u) 0%nat)) a
  /\ uniform_mean 1 0 1 (fun u => g (dist_sample Triweight 1 (with_unif (flipped r) u) 0%nat)) b
  /\ is_tint (fun t => g t * dist_evaluate Triweight 1 (fun _ => t)) m /\ Rabs ((a + b) / 2 - m) <= L / 999.
Proof.
  intros Hg HL Hz. destruct (sign_of _ Hz) as [s [Hs Es]].
  assert (Es' : forall a, a * (- r_norm r 0%nat) / sqrt (0 + - r_norm r 0%nat * - r_norm r 0%nat) = - s * a).
  { intros a. replace (- r_norm r 0%nat * - r_norm r 0%nat) with (r_norm r 0%nat * r_norm r 0%nat) by ring. unfold Rdiv in *. rewrite <- (Ropp_mult_distr_l s), <- Es. ring. }
  assert (Q : forall e, e = 1 \/ e = -1 -> exists I J : R, is_RInt (fun u => g (e * rho u)) 0 1 I /\ is_RInt (fun x => tri_pdf x * g (e * x)) 0 1 J /\ Rabs (I - J) <= L / 999).
  { intros e He. rewrite <- tab_m_999. apply (rho_mean (fun x => g (e * x)) L).
    - intros x. apply (continuous_comp (fun x => e * x) g); [cont|apply Hg].
    - intros x y Hx Hy. replace (Rabs (x - y)) with (Rabs (e * x - e * y)).
      + apply HL; destruct He as [-> | ->]; lra.
      + destruct He as [-> | ->]; [f_equal; ring|]. rewrite <- (Rabs_Ropp (x - y)). f_equal. ring. }
  destruct (Q s Hs) as [I [J [HI [HJ HB]]]]. destruct (Q (- s)) as [I' [J' [HI' [HJ' HB']]]]; [destruct Hs; subst; [right|left]; lra|].
  exists I, I', ((J + J') / 2). split; [|split; [|split]].
  - apply uniform_mean_of; [lra|]. intros base. cbn [is_mean]. exists (fun u => g (s * rho u)). split.
    + intros t _. f_equal. unfold dist_sample. cbn [with_unif r_unif r_norm norm2 rsum]. unfold norm2. cbn [rsum]. rewrite upd_same. apply Es.
    + replace ((1 - 0) * I) with I by ring. exact HI.
  - apply uniform_mean_of; [lra|]. intros base. cbn [is_mean]. exists (fun u => g (- s * rho u)). split.
    + intros t _. f_equal. unfold dist_sample. cbn [with_unif flipped r_unif r_norm norm2 rsum]. unfold norm2. cbn [rsum]. rewrite upd_same. apply Es'.
    + replace ((1 - 0) * I') with I' by ring. exact HI'.
  - apply line_integral; [reflexivity|]. cbn [dq]. rewrite betaq_6.
    assert (P : forall e K, (e = 1 \/ e = -1) -> is_RInt (fun x => tri_pdf x * g (e * x)) 0 1 K ->
              is_RInt (fun t => g t * (sqrt (1 - t * t) ^ 6 / (32 / 35))) (Rmin 0 e) (Rmax 0 e) (K / 2)).
    { intros e K He HK.
      assert (EE : forall t, -1 <= t <= 1 -> sqrt (1 - t * t) ^ 6 = (1 - t * t) ^ 3).
      { intros t Ht. replace 6%nat with (2 * 3)%nat by reflexivity. rewrite pow_mult. f_equal. cbn [pow]. rewrite Rmult_1_r. apply sqrt_sqrt. nra. }
      pose proof (is_RInt_scal (V := R_NormedModule) _ _ _ (/ 2) _ HK) as HS.
      change (scal (/ 2) K) with (/ 2 * K) in HS. replace (/ 2 * K) with (K / 2) in HS by field.
      destruct He as [-> | ->].
      - rewrite Rmin_left, Rmax_right by lra. apply is_RInt_ext with (2 := HS). intros x Hx. rewrite Rmin_left, Rmax_right in Hx by lra.
        change (/ 2 * (tri_pdf x * g (1 * x)) = g x * (sqrt (1 - x * x) ^ 6 / (32 / 35))). rewrite EE by lra. unfold tri_pdf. rewrite Rmult_1_l. field.
      - rewrite Rmin_right, Rmax_left by lra.
        pose proof (is_RInt_comp_lin (V := R_NormedModule) (fun y => scal (/ 2) (tri_pdf y * g (-1 * y))) (-1) 0 (-1) 0 (opp (K / 2))) as HC.
        replace (-1 * -1 + 0) with 1 in HC by ring. replace (-1 * 0 + 0) with 0 in HC by ring.
        specialize (HC (is_RInt_swap (V := R_NormedModule) _ _ _ _ HS)).
        pose proof (is_RInt_opp (V := R_NormedModule) _ _ _ _ HC) as HO. rewrite opp_opp in HO.
        apply is_RInt_ext with (2 := HO). intros x Hx. rewrite Rmin_left, Rmax_right in Hx by lra.
        change (- (-1 * (/ 2 * (tri_pdf (-1 * x + 0) * g (-1 * (-1 * x + 0))))) = g x * (sqrt (1 - x * x) ^ 6 / (32 / 35))).
        rewrite EE by lra. unfold tri_pdf. replace (-1 * (-1 * x + 0)) with x by ring. field. }
    pose proof (P s J Hs HJ) as P1. pose proof (P (- s) J' ltac:(destruct Hs; subst; [right|left]; lra) HJ') as P2.
    destruct Hs as [-> | ->].
    + rewrite Rmin_left, Rmax_right in P1 by lra. rewrite Rmin_right, Rmax_left in P2 by lra.
      replace ((J + J') / 2) with (J' / 2 + J / 2) by field. exact (is_RInt_Chasles _ _ _ _ _ _ P2 P1).
    + rewrite Rmin_right, Rmax_left in P1 by lra. replace (- -1) with 1 in P2 by ring. rewrite Rmin_left, Rmax_right in P2 by lra.
      replace ((J + J') / 2) with (J / 2 + J' / 2) by field. exact (is_RInt_Chasles _ _ _ _ _ _ P1 P2).
  - apply Rabs_le. apply Rcomplements.Rabs_le_between in HB, HB'. lra.
Qed.

(** C142: small changes of data, weights and evaluation points. *)
From Coq Require Import FunctionalExtensionality.
From Coquelicot Require Import Coquelicot.
From Verif Require Import Base ModelLinAlg SpecLinAlg ModelKernels SpecKernels SpecIntegral ModelKDE SpecKDE SpecContinuous SpecSlope SpecStable
  ProofLinAlg ProofIntegral ProofKernels ProofDensity ProofAffine ProofShape ProofKDE ProofTop ProofTop2 ProofTop3 ProofCdfError ProofSlope ProofInt2 ProofBandwidth.
Open Scope R_scope.
Notation length := List.length.

(** * The distance of the kernel *)
Lemma quad_same n N (x y : pt) : (forall i, (i < n)%nat -> x i = y i) -> quad n N x = quad n N y.
Proof. intros H. apply quad_ext; [intros i j _ _; reflexivity|exact H]. Qed.
Lemma quad_add n N u v : symmetric n N -> quad n N (fun i => u i + v i) = quad n N u + 2 * inner n N u v + quad n N v.
Proof.
  intros Hs. pose proof (quad_step n N u v (fun _ => 0) 1 Hs) as H. replace (quad n N (fun i => u i + v i)) with (quad n N (psub (step u v 1) (fun _ => 0))) by (apply quad_same; intros i _; unfold psub, step; ring).
  rewrite H. replace (quad n N (psub u (fun _ => 0))) with (quad n N u) by (apply quad_same; intros i _; unfold psub; ring).
  replace (inner n N (psub u (fun _ => 0)) v) with (inner n N u v); [ring|]. unfold inner. apply rsum_ext. intros i _. apply rsum_ext. intros j _. unfold psub. ring.
Qed.
Lemma inner_scal n N u v t : inner n N u (fun i => t * v i) = t * inner n N u v.
Proof. unfold inner. rewrite <- rsum_scal. apply rsum_ext. intros i _. rewrite <- rsum_scal. apply rsum_ext. intros j _. ring. Qed.
Lemma quad_scal n N v t : quad n N (fun i => t * v i) = t * t * quad n N v.
Proof. unfold quad. rewrite <- rsum_scal. apply rsum_ext. intros i _. rewrite <- rsum_scal. apply rsum_ext. intros j _. ring. Qed.
Lemma inner_bound n N u v : symmetric n N -> (forall y, 0 <= quad n N y) -> inner n N u v <= sqrt (quad n N u) * sqrt (quad n N v).
Proof.
  intros Hs HQ. set (a := quad n N u). set (b := quad n N v). set (c := inner n N u v). assert (Ha : 0 <= a) by apply HQ. assert (Hb : 0 <= b) by apply HQ.
  assert (H : forall t, 0 <= a + 2 * t * c + t * t * b).
  { intros t. pose proof (HQ (fun i => u i + t * v i)) as H. rewrite (quad_add n N u (fun i => t * v i) Hs), inner_scal, quad_scal in H. fold a b c in H. lra. }
  destruct (Rle_dec c 0) as [Hc|Hc]; [pose proof (Rmult_le_pos _ _ (sqrt_pos a) (sqrt_pos b)); lra|].
  assert (Hcc : c * c <= a * b).
  { destruct Hb as [Hb|Hb].
    - specialize (H (- c / b)). replace (a + 2 * (- c / b) * c + - c / b * (- c / b) * b) with (a - c * c / b) in H by (field; lra). apply Rmult_le_reg_r with (/ b); [apply Rinv_0_lt_compat, Hb|].
      replace (a * b * / b) with a by (field; lra). unfold Rdiv in H. lra.
    - rewrite <- Hb in H. specialize (H (- (a + 1) / (2 * c))). replace (a + 2 * (- (a + 1) / (2 * c)) * c + - (a + 1) / (2 * c) * (- (a + 1) / (2 * c)) * 0) with (-1) in H by (field; lra). lra. }
  rewrite <- sqrt_mult by assumption. rewrite <- (sqrt_square c) by lra. apply sqrt_le_1_alt. exact Hcc.
Qed.
Lemma root_triangle n N u v : symmetric n N -> (forall y, 0 <= quad n N y) -> sqrt (quad n N (fun i => u i + v i)) <= sqrt (quad n N u) + sqrt (quad n N v).
Proof.
  intros Hs HQ. rewrite (quad_add n N u v Hs). pose proof (inner_bound n N u v Hs HQ) as H. pose proof (sqrt_pos (quad n N u)) as Ha. pose proof (sqrt_pos (quad n N v)) as Hb.
  rewrite <- (sqrt_square (sqrt (quad n N u) + sqrt (quad n N v))) by lra. apply sqrt_le_1_alt. pose proof (sqrt_sqrt _ (HQ u)) as E1. pose proof (sqrt_sqrt _ (HQ v)) as E2.
  set (p := sqrt (quad n N u)) in *. set (q := sqrt (quad n N v)) in *. lra.
Qed.
Lemma dist_sym n N x y : kernel_dist n N x y = kernel_dist n N y x.
Proof. unfold kernel_dist. f_equal. replace (quad n N (psub x y)) with (quad n N (fun i => (-1) * psub y x i)) by (apply quad_same; intros i _; unfold psub; ring). rewrite quad_scal. ring. Qed.
Lemma dist_triangle n N x y z : symmetric n N -> (forall y, 0 <= quad n N y) -> kernel_dist n N x z <= kernel_dist n N x y + kernel_dist n N y z.
Proof.
  intros Hs HQ. unfold kernel_dist. replace (quad n N (psub x z)) with (quad n N (fun i => psub x y i + psub y z i)) by (apply quad_same; intros i _; unfold psub; ring). apply root_triangle; assumption.
Qed.

(** * Profiles as functions of the distance *)
Lemma slope_bound (g g' : R -> R) c : (forall s, 0 <= s -> is_derive g s (g' s)) -> (forall s, 0 <= s -> Rabs (g' s) <= c) -> forall s t, 0 <= s -> 0 <= t -> Rabs (g t - g s) <= c * Rabs (t - s).
Proof.
  intros Hd Hb s t Hs Ht. destruct (MVT_gen g s t g') as (m & [Hm1 Hm2] & E).
  - intros x [Hx _]. apply Hd. apply Rlt_le, Rle_lt_trans with (2 := Hx). apply Rmin_glb; assumption.
  - intros x [Hx _]. apply derivable_continuous_pt. exists (g' x). apply is_derive_Reals. apply Hd. apply Rle_trans with (2 := Hx). apply Rmin_glb; assumption.
  - rewrite E, Rabs_mult. apply Rmult_le_compat_r; [apply Rabs_pos|]. apply Hb. apply Rle_trans with (2 := Hm1). apply Rmin_glb; assumption.
Qed.
Lemma gauss_steep s : 0 <= s -> Rabs (- s * exp (- (s * s / 2))) <= 2.
Proof.
  intros Hs. rewrite Rabs_mult, Rabs_Ropp, (Rabs_right s), (Rabs_right (exp _)) by (try lra; left; apply exp_pos). apply Rle_trans with 1; [|lra].
  apply Rmult_le_reg_r with (exp (s * s / 2)); [apply exp_pos|]. rewrite Rmult_assoc, <- exp_plus. replace (- (s * s / 2) + s * s / 2) with 0 by ring. rewrite exp_0.
  assert (0 <= (s - 1) * (s - 1)) by apply Rle_0_sqr. destruct (Req_dec s 0) as [->|]; [pose proof (exp_pos (0 * 0 / 2)); lra|]. assert (0 < s * s / 2) by (apply Rdiv_lt_0_compat; [apply Rmult_lt_0_compat|]; lra).
  pose proof (exp_ineq1 (s * s / 2) ltac:(lra)). lra.
Qed.
Lemma cube_steep s : 0 <= s <= 1 -> 6 * s * ((1 - s * s) * (1 - s * s)) <= 2.
Proof.
  intros Hs. set (v := s * s). assert (Hv : 0 <= v <= 1) by (unfold v; split; [apply Rle_0_sqr|]; apply Rle_trans with (1 * 1); [apply Rmult_le_compat; lra|lra]).
  assert (H1 : 2 * s <= 2 * v + / 2) by (pose proof (Rle_0_sqr (2 * s - 1)) as H; unfold Rsqr in H; unfold v; lra).
  assert (H2 : 0 <= (1 - v) * (1 - v)) by apply Rle_0_sqr. apply Rle_trans with ((6 * v + 3 / 2) * ((1 - v) * (1 - v))); [apply Rmult_le_compat_r; lra|].
  pose proof (Rle_0_sqr (1 / 2 - 3 / 2 * v)) as H3. unfold Rsqr in H3. assert (H4 : 0 <= v * v * (1 - v)) by (repeat apply Rmult_le_pos; lra). lra.
Qed.
Lemma cube_lip s t : 0 <= s <= 1 -> 0 <= t <= 1 -> Rabs ((1 - s * s) * (1 - s * s) * (1 - s * s) - (1 - t * t) * (1 - t * t) * (1 - t * t)) <= 2 * Rabs (s - t).
Proof.
  intros Hs Ht. destruct (MVT_gen (fun u => (1 - u * u) * (1 - u * u) * (1 - u * u)) t s (fun u => - (6 * u * ((1 - u * u) * (1 - u * u))))) as (m & [Hm1 Hm2] & E).
  - intros x _. auto_derive; [exact I|]. ring.
  - intros x _. apply derivable_continuous_pt. exists (- (6 * x * ((1 - x * x) * (1 - x * x)))). apply is_derive_Reals. auto_derive; [exact I|]. ring.
  - rewrite E, Rabs_mult. apply Rmult_le_compat_r; [apply Rabs_pos|]. assert (Hm : 0 <= m <= 1) by (split; [apply Rle_trans with (2 := Hm1); apply Rmin_glb; lra|apply Rle_trans with (1 := Hm2); apply Rmax_lub; lra]).
    rewrite Rabs_Ropp, Rabs_right; [apply cube_steep, Hm|]. apply Rle_ge. repeat apply Rmult_le_pos; try lra; pose proof (Rle_trans _ _ _ (Rmult_le_compat m 1 m 1 (proj1 Hm) (proj1 Hm) (proj2 Hm) (proj2 Hm)) (Req_le _ _ (Rmult_1_r 1))); lra.
Qed.
Lemma prof_lip d s t : d <> Box -> 0 <= s -> 0 <= t -> Rabs (spec_prof d (s * s) - spec_prof d (t * t)) <= 2 * Rabs (s - t).
Proof.
  intros Hd Hs Ht. assert (sq : forall u, 0 <= u -> (u * u <= 1 <-> u <= 1)).
  { intros u Hu. split; intros H; [|apply Rle_trans with (1 * 1); [apply Rmult_le_compat; lra|lra]]. apply Rnot_lt_le. intros C. assert (1 * 1 < u * u) by (apply Rmult_gt_0_lt_compat; lra). lra. }
  destruct d; [|congruence| |]; cbn [spec_prof].
  - apply (slope_bound (fun u => exp (- (u * u / 2))) (fun u => - u * exp (- (u * u / 2))) 2); [intros u _; auto_derive; [exact I|]; unfold Rdiv; field|apply gauss_steep|exact Ht|exact Hs].
  - destruct (Rle_dec (s * s) 1) as [H1|H1]; destruct (Rle_dec (t * t) 1) as [H2|H2]; rewrite (sq _ Hs) in H1; rewrite (sq _ Ht) in H2.
    + replace (1 - s * s - (1 - t * t)) with ((s + t) * - (s - t)) by ring. rewrite Rabs_mult, Rabs_Ropp. apply Rmult_le_compat_r; [apply Rabs_pos|]. rewrite Rabs_right by lra. lra.
    + rewrite Rabs_right by (assert (s * s <= 1) by (apply sq; lra); lra). rewrite Rabs_left by lra. replace (1 - s * s - 0) with ((1 + s) * (1 - s)) by ring. apply Rmult_le_compat; lra.
    + rewrite Rabs_left1 by (assert (t * t <= 1) by (apply sq; lra); lra). rewrite Rabs_right by lra. replace (- (0 - (1 - t * t))) with ((1 + t) * (1 - t)) by ring. apply Rmult_le_compat; lra.
    + rewrite Rminus_0_r, Rabs_R0. pose proof (Rabs_pos (s - t)). lra.
  - destruct (Rle_dec (s * s) 1) as [H1|H1]; destruct (Rle_dec (t * t) 1) as [H2|H2]; rewrite (sq _ Hs) in H1; rewrite (sq _ Ht) in H2.
    + apply cube_lip; lra.
    + pose proof (cube_lip s 1 ltac:(lra) ltac:(lra)) as H. replace ((1 - 1 * 1) * (1 - 1 * 1) * (1 - 1 * 1)) with 0 in H by ring. apply Rle_trans with (1 := H). rewrite !Rabs_left1 by lra. lra.
    + pose proof (cube_lip 1 t ltac:(lra) ltac:(lra)) as H. replace ((1 - 1 * 1) * (1 - 1 * 1) * (1 - 1 * 1)) with 0 in H by ring. apply Rle_trans with (1 := H). rewrite !Rabs_right by lra. lra.
    + rewrite Rminus_0_r, Rabs_R0. pose proof (Rabs_pos (s - t)). lra.
Qed.
Lemma term_lip d n N x y p q : d <> Box -> symmetric n N -> (forall y, 0 <= quad n N y) ->
  Rabs (spec_prof d (quad n N (psub x p)) - spec_prof d (quad n N (psub y q))) <= 2 * (kernel_dist n N x y + kernel_dist n N p q).
Proof.
  intros Hd Hs HQ. rewrite <- (sqrt_sqrt (quad n N (psub x p)) (HQ _)), <- (sqrt_sqrt (quad n N (psub y q)) (HQ _)). fold (kernel_dist n N x p). fold (kernel_dist n N y q).
  apply Rle_trans with (1 := prof_lip d _ _ Hd (sqrt_pos _) (sqrt_pos _)). apply Rmult_le_compat_l; [lra|]. apply Rabs_le.
  pose proof (dist_triangle n N x y p Hs HQ). pose proof (dist_triangle n N y q p Hs HQ). pose proof (dist_triangle n N y x q Hs HQ). pose proof (dist_triangle n N x p q Hs HQ).
  rewrite (dist_sym n N q p) in H0. rewrite (dist_sym n N y x) in H1. unfold kernel_dist in *. split; lra.
Qed.

(** * Densities *)
Lemma peak_exists n d M : (1 <= n)%nat -> symmetric n M -> posdef n M -> exists v, peak_of n d M v /\ 0 < v.
Proof.
  intros Hn Hs Hp. set (K := mkKDE n [origin] None 1 (Some (mkKernel d n M)) None). assert (HB : built_kde n [origin] [1] d M None K).
  { split; [|split; [reflexivity|split; assumption]]. exists WNone, (BwAtom (BNum 1)), false, None, (Some M), None. split; [left; split; reflexivity|].
    unfold kde_init. cbn [length Nat.eqb check_weights bind set_bandwidth compute_bandwidth]. unfold kernel_init. rewrite kernel_matrix_1. unfold K, neff_of. cbn [INR]. reflexivity. }
  destruct (sympd_inverse n M Hs Hp) as [N HN]. destruct (top_textbook n _ _ d M K N Hn HB HN) as (Z0 & g & f & _ & _ & _ & Hf & _).
  destruct (as_textbook _ _ _ _ _ _ _ true _ Hn HB HN Hf) as (Z & HZ & _ & Hw & _ & Ef). exists (f origin). split; [exists origin, K, f; auto|]. rewrite Ef. unfold spec_sum, sumf. cbn [combine map fst snd lsum].
  replace (quad n N (psub origin origin)) with 0; [rewrite prof_0; cbn [mass]; unfold lsum; cbn; apply Rmult_lt_0_compat; [repeat apply Rdiv_lt_0_compat; lra|lra]|].
  symmetry. unfold quad. apply rsum_zero_ext. intros i _. apply rsum_zero_ext. intros j _. unfold psub. ring.
Qed.
(** The density in shares and peaks. *)
Lemma in_peaks n data ws d M K N (prob : bool) f v : (1 <= n)%nat -> built_kde n data ws d M None K -> is_inverse n M N -> kde_density K prob n None PNone = Ok f -> peak_of n d M v ->
  0 < v /\ forall x, f x = mass prob ws * v * sumf (fun dw => snd dw / lsum ws * spec_prof d (quad n N (psub x (fst dw)))) (combine data ws).
Proof.
  intros Hn HB HN Hf (p & K1 & f1 & HB1 & Hf1 & Ev). destruct (as_textbook _ _ _ _ _ _ _ _ _ Hn HB HN Hf) as (Z & HZ & HT & Hw & _ & Ef).
  destruct (as_textbook _ _ _ _ _ _ _ _ _ Hn HB1 HN Hf1) as (Z1 & _ & HT1 & _ & _ & Ef1). rewrite (tintN_unique n _ (fun _ => 0) _ _ (HT1 _) (HT _)) in Ef1.
  assert (E : v = / Z).
  { rewrite <- Ev, Ef1. unfold spec_sum, sumf. cbn [combine map fst snd]. replace (quad n N (psub p p)) with 0; [rewrite prof_0; unfold mass, lsum; cbn; field; lra|].
    symmetry. unfold quad. apply rsum_zero_ext. intros i _. apply rsum_zero_ext. intros j _. unfold psub. ring. }
  split; [rewrite E; apply Rinv_0_lt_compat, HZ|]. intros x. rewrite Ef, E. unfold spec_sum. replace (mass prob ws / lsum ws / Z) with (mass prob ws * / Z * / lsum ws) by (field; lra). rewrite Rmult_assoc. f_equal.
  rewrite <- sumf_scal. apply sumf_ext. intros [q w] _. cbn [fst snd]. field. lra.
Qed.
Lemma shares_one ws : 0 < lsum ws -> sumf (fun w => w / lsum ws) ws = 1.
Proof. intros H. transitivity (sumf (fun w => w) ws * / lsum ws); [rewrite <- sumf_scal_r; reflexivity|]. unfold sumf. rewrite map_id. field. lra. Qed.
Lemma sumf_triangle {A} (f g : A -> R) l : (forall x, In x l -> Rabs (f x) <= g x) -> Rabs (sumf f l) <= sumf g l.
Proof.
  induction l as [|x l IH]; intros H; [unfold sumf; cbn; rewrite Rabs_R0; lra|]. rewrite !sumf_cons. apply Rle_trans with (1 := Rabs_triang _ _). apply Rplus_le_compat; [apply H; left; reflexivity|apply IH; intros y Hy; apply H; right; exact Hy].
Qed.
Lemma sumf_combine_l {A B} (g : B -> R) : forall (l : list A) (m : list B), length m = length l -> sumf (fun ab => g (snd ab)) (combine l m) = sumf g m.
Proof. induction l as [|a l IH]; intros [|b m] E; try discriminate; [reflexivity|]. cbn [combine]. rewrite !sumf_cons. cbn [snd]. rewrite IH by (cbn in E; lia). reflexivity. Qed.
Lemma pairs_sum (F : pt -> R -> R) : forall (data data' : list pt) ws, length ws = length data -> length data' = length data ->
  sumf (fun dw => F (fst dw) (snd dw)) (combine data' ws) = sumf (fun t : (pt * pt) * R => F (snd (fst t)) (snd t)) (combine (combine data data') ws)
  /\ sumf (fun dw => F (fst dw) (snd dw)) (combine data ws) = sumf (fun t : (pt * pt) * R => F (fst (fst t)) (snd t)) (combine (combine data data') ws).
Proof.
  induction data as [|p data IH]; intros [|q data'] [|w ws] E1 E2; try discriminate; [split; reflexivity|]. cbn [combine]. rewrite !sumf_cons. cbn [fst snd]. destruct (IH data' ws) as [H1 H2]; [cbn in *; lia|cbn in *; lia|].
  rewrite H1, H2. split; reflexivity.
Qed.
Lemma weights_of_built n data ws d M refl K : built_kde n data ws d M refl K -> length ws = length data /\ (forall w, In w ws -> 0 <= w) /\ 0 < lsum ws.
Proof. intros HB. destruct (built_inv _ _ _ _ _ _ _ HB) as (_ & _ & _ & _ & _ & Hl & Hnn & Hw & _). auto. Qed.
(** Other points and other data at once. *)
Lemma moved n data data' ws d M K K' N (prob : bool) f f' v delta x y : (1 <= n)%nat -> d <> Box -> built_kde n data ws d M None K -> built_kde n data' ws d M None K' -> is_inverse n M N ->
  kde_density K prob n None PNone = Ok f -> kde_density K' prob n None PNone = Ok f' -> peak_of n d M v ->
  (forall p q, In (p, q) (combine data data') -> kernel_dist n N p q <= delta) -> Rabs (f x - f' y) <= 2 * (mass prob ws * v) * (kernel_dist n N x y + delta).
Proof.
  intros Hn Hd HB HB' HN Hf Hf' Hv Hm. destruct (in_peaks _ _ _ _ _ _ _ _ _ _ Hn HB HN Hf Hv) as [Hv0 Ef]. destruct (in_peaks _ _ _ _ _ _ _ _ _ _ Hn HB' HN Hf' Hv) as [_ Ef'].
  destruct (weights_of_built _ _ _ _ _ _ _ HB) as (Hl & Hnn & Hw). destruct (weights_of_built _ _ _ _ _ _ _ HB') as (Hl' & _). destruct HB as (_ & _ & Hs & Hp). destruct (inverse_sympd n M N Hs Hp HN) as [HsN HpN]. pose proof (pd_nonneg n N HpN) as HQ.
  rewrite Ef, Ef'. destruct (pairs_sum (fun p w => w / lsum ws * spec_prof d (quad n N (psub y p))) data data' ws Hl ltac:(lia)) as [-> _].
  destruct (pairs_sum (fun p w => w / lsum ws * spec_prof d (quad n N (psub x p))) data data' ws Hl ltac:(lia)) as [_ ->]. rewrite <- Rmult_minus_distr_l, Rabs_mult.
  assert (Hc : 0 < mass prob ws * v) by (apply Rmult_lt_0_compat; [destruct prob; cbn; lra|exact Hv0]). rewrite (Rabs_right (mass prob ws * v)) by lra.
  replace (2 * (mass prob ws * v) * (kernel_dist n N x y + delta)) with (mass prob ws * v * (2 * (kernel_dist n N x y + delta))) by ring. apply Rmult_le_compat_l; [lra|].
  set (l := combine (combine data data') ws). rewrite <- Rmult_1_l with (r := 2 * _) at 1. rewrite <- (shares_one ws Hw).
  rewrite <- (sumf_combine_l (fun w => w / lsum ws) (combine data data') ws) by (rewrite combine_length; lia). rewrite <- sumf_scal_r. unfold Rminus. rewrite <- (Rmult_1_l (sumf (fun t : pt * pt * R => snd t / lsum ws * spec_prof d (quad n N (psub y (snd (fst t))))) l)), Ropp_mult_distr_l, <- sumf_scal, <- sumf_plus.
  apply sumf_triangle. intros [[p q] w] Hin. cbn [fst snd]. assert (Hw' : 0 <= w / lsum ws) by (apply Rmult_le_pos; [apply Hnn; exact (in_combine_r _ _ _ _ Hin)|left; apply Rinv_0_lt_compat, Hw]).
  replace (w / lsum ws * spec_prof d (quad n N (psub x p)) + - (1) * (w / lsum ws * spec_prof d (quad n N (psub y q)))) with (w / lsum ws * (spec_prof d (quad n N (psub x p)) - spec_prof d (quad n N (psub y q)))) by ring.
  rewrite Rabs_mult, (Rabs_right (w / lsum ws)) by lra. apply Rmult_le_compat_l; [exact Hw'|]. apply Rle_trans with (1 := term_lip d n N x y p q Hd HsN HQ). pose proof (Hm p q (in_combine_l _ _ _ _ Hin)). lra.
Qed.
Lemma combine_app_r {A B} : forall (l r : list A) (wl wr : list B), length wl = length l -> combine (l ++ r) (wl ++ wr) = combine l wl ++ combine r wr.
Proof. induction l as [|x l IH]; intros r [|w wl] wr E; try discriminate; [reflexivity|]. cbn [app combine]. rewrite IH by (cbn in E; lia). reflexivity. Qed.
(** One datum replaced. *)
Lemma replaced n l p q r wl w wr d M K K' (prob : bool) f f' v : (1 <= n)%nat -> length wl = length l -> built_kde n (l ++ p :: r) (wl ++ w :: wr) d M None K -> built_kde n (l ++ q :: r) (wl ++ w :: wr) d M None K' ->
  kde_density K prob n None PNone = Ok f -> kde_density K' prob n None PNone = Ok f' -> peak_of n d M v -> forall x, Rabs (f x - f' x) <= mass prob (wl ++ w :: wr) * v * (w / lsum (wl ++ w :: wr)).
Proof.
  intros Hn Hl HB HB' Hf Hf' Hv x. set (ws := wl ++ w :: wr) in *. destruct (weights_of_built _ _ _ _ _ _ _ HB) as (_ & Hnn & Hw). assert (Hw0 : 0 <= w) by (apply Hnn; apply in_or_app; right; left; reflexivity).
  pose proof HB as (_ & _ & Hs & Hp). destruct (sympd_inverse n M Hs Hp) as [N HN]. destruct (inverse_sympd n M N Hs Hp HN) as [HsN HpN]. pose proof (pd_nonneg n N HpN) as HQ.
  destruct (in_peaks _ _ _ _ _ _ _ _ _ _ Hn HB HN Hf Hv) as [Hv0 Ef]. destruct (in_peaks _ _ _ _ _ _ _ _ _ _ Hn HB' HN Hf' Hv) as [_ Ef']. rewrite Ef, Ef'.
  assert (Hc : 0 < mass prob ws * v) by (apply Rmult_lt_0_compat; [destruct prob; cbn; lra|exact Hv0]). rewrite <- Rmult_minus_distr_l, Rabs_mult, (Rabs_right (mass prob ws * v)) by lra. apply Rmult_le_compat_l; [lra|].
  unfold ws at 2 4. rewrite !combine_app_r by exact Hl. cbn [combine]. rewrite !sumf_app, !sumf_cons. cbn [fst snd].
  match goal with |- Rabs (?a + (?b + ?c) - (?a + (?e + ?c))) <= _ => replace (a + (b + c) - (a + (e + c))) with (b - e) by ring end.
  rewrite <- Rmult_minus_distr_l, Rabs_mult. assert (Hw' : 0 <= w / lsum ws) by (apply Rmult_le_pos; [exact Hw0|left; apply Rinv_0_lt_compat, Hw]). rewrite (Rabs_right (w / lsum ws)) by lra.
  rewrite <- (Rmult_1_r (w / lsum ws)) at 2. apply Rmult_le_compat_l; [exact Hw'|]. apply Rabs_le. pose proof (prof_le_1 d _ (HQ (psub x p))). pose proof (prof_le_1 d _ (HQ (psub x q))).
  pose proof (prof_pos d (quad n N (psub x p))). pose proof (prof_pos d (quad n N (psub x q))). lra.
Qed.
(** One datum left out. *)
Lemma removed n l p r wl w wr d M K K' f f' v : (1 <= n)%nat -> length wl = length l -> built_kde n (l ++ p :: r) (wl ++ w :: wr) d M None K -> built_kde n (l ++ r) (wl ++ wr) d M None K' ->
  kde_density K true n None PNone = Ok f -> kde_density K' true n None PNone = Ok f' -> peak_of n d M v -> forall x, Rabs (f x - f' x) <= v * (w / lsum (wl ++ w :: wr)).
Proof.
  intros Hn Hl HB HB' Hf Hf' Hv x. destruct (weights_of_built _ _ _ _ _ _ _ HB) as (_ & Hnn & Hw). destruct (weights_of_built _ _ _ _ _ _ _ HB') as (Hl' & Hnn' & Hw'). assert (Hw0 : 0 <= w) by (apply Hnn; apply in_or_app; right; left; reflexivity).
  pose proof HB as (_ & _ & Hs & Hp). destruct (sympd_inverse n M Hs Hp) as [N HN]. destruct (inverse_sympd n M N Hs Hp HN) as [HsN HpN]. pose proof (pd_nonneg n N HpN) as HQ.
  destruct (in_peaks _ _ _ _ _ _ _ _ _ _ Hn HB HN Hf Hv) as [Hv0 Ef]. destruct (in_peaks _ _ _ _ _ _ _ _ _ _ Hn HB' HN Hf' Hv) as [_ Ef'].
  set (W := lsum (wl ++ w :: wr)) in *. set (V := lsum (wl ++ wr)) in *. assert (EW : W = w + V) by (unfold W, V; rewrite !lsum_app; cbn [lsum fold_right map]; unfold lsum; cbn; lra).
  set (k := spec_prof d (quad n N (psub x p))). assert (Hk : 0 <= k <= 1) by (split; [apply prof_pos|apply prof_le_1, HQ]).
  set (s := sumf (fun dw => snd dw * spec_prof d (quad n N (psub x (fst dw)))) (combine (l ++ r) (wl ++ wr))).
  assert (Es : forall c data ws, sumf (fun dw => snd dw / c * spec_prof d (quad n N (psub x (fst dw)))) (combine data ws) = / c * sumf (fun dw => snd dw * spec_prof d (quad n N (psub x (fst dw)))) (combine data ws)).
  { intros c data ws. rewrite <- sumf_scal. apply sumf_ext. intros dw _. unfold Rdiv. ring. }
  assert (E1 : f x = v * (/ W * (w * k + s))).
  { rewrite Ef, Es. cbn [mass]. rewrite Rmult_1_l. f_equal. f_equal. unfold s. rewrite !combine_app_r by exact Hl. cbn [combine]. rewrite !sumf_app, sumf_cons. cbn [fst snd]. fold k. ring. }
  assert (E2 : f' x = v * (/ V * s)) by (rewrite Ef', Es; cbn [mass]; rewrite Rmult_1_l; reflexivity).
  assert (Hs0 : 0 <= s <= V).
  { split; [apply sumf_nonneg; intros [q u] H; cbn [fst snd]; apply Rmult_le_pos; [apply Hnn'; exact (in_combine_r _ _ _ _ H)|apply prof_pos]|].
    unfold V. rewrite <- (sumf_snd_combine (l ++ r) (wl ++ wr) Hl'). apply sumf_le. intros [q u] H. cbn [fst snd]. rewrite <- (Rmult_1_r u) at 2. apply Rmult_le_compat_l; [apply Hnn'; exact (in_combine_r _ _ _ _ H)|apply prof_le_1, HQ]. }
  rewrite E1, E2. replace (v * (/ W * (w * k + s)) - v * (/ V * s)) with (v * (w / W) * (k - s / V)) by (rewrite EW; field; lra).
  assert (Hc : 0 <= v * (w / W)) by (apply Rmult_le_pos; [lra|apply Rmult_le_pos; [exact Hw0|left; apply Rinv_0_lt_compat, Hw]]). rewrite Rabs_mult, (Rabs_right (v * (w / W))) by lra.
  rewrite <- (Rmult_1_r (v * (w / W))) at 2. apply Rmult_le_compat_l; [exact Hc|]. apply Rabs_le. assert (0 <= s / V <= 1); [|lra].
  split; [apply Rmult_le_pos; [lra|left; apply Rinv_0_lt_compat, Hw']|]. apply Rmult_le_reg_r with V; [exact Hw'|]. replace (s / V * V) with s by (field; lra). lra.
Qed.
(** Other weights. *)
Lemma reweighted n data ws vs d M K K' f f' v : (1 <= n)%nat -> built_kde n data ws d M None K -> built_kde n data vs d M None K' ->
  kde_density K true n None PNone = Ok f -> kde_density K' true n None PNone = Ok f' -> peak_of n d M v -> forall x, Rabs (f x - f' x) <= v * share_diff ws vs.
Proof.
  intros Hn HB HB' Hf Hf' Hv x. destruct (weights_of_built _ _ _ _ _ _ _ HB) as (Hl & _ & Hw). destruct (weights_of_built _ _ _ _ _ _ _ HB') as (Hl' & _ & Hw').
  pose proof HB as (_ & _ & Hs & Hp). destruct (sympd_inverse n M Hs Hp) as [N HN]. destruct (inverse_sympd n M N Hs Hp HN) as [HsN HpN]. pose proof (pd_nonneg n N HpN) as HQ.
  destruct (in_peaks _ _ _ _ _ _ _ _ _ _ Hn HB HN Hf Hv) as [Hv0 Ef]. destruct (in_peaks _ _ _ _ _ _ _ _ _ _ Hn HB' HN Hf' Hv) as [_ Ef']. rewrite Ef, Ef'. cbn [mass]. rewrite !Rmult_1_l.
  rewrite <- Rmult_minus_distr_l, Rabs_mult, (Rabs_right v) by lra. apply Rmult_le_compat_l; [lra|]. unfold share_diff. set (W := lsum ws). set (V := lsum vs). clearbody W V.
  assert (H : forall (data : list pt) ws vs, length ws = length data -> length vs = length data -> Rabs (sumf (fun dw => snd dw / W * spec_prof d (quad n N (psub x (fst dw)))) (combine data ws) - sumf (fun dw => snd dw / V * spec_prof d (quad n N (psub x (fst dw)))) (combine data vs))
    <= lsum (map (fun wv : R * R => Rabs (fst wv / W - snd wv / V)) (combine ws vs))); [|apply H; assumption]. clear -HQ.
  induction data as [|p data IH]; intros [|w ws] [|v vs] E1 E2; try discriminate; [unfold sumf; cbn; rewrite Rminus_0_r, Rabs_R0; lra|].
  specialize (IH ws vs ltac:(cbn in *; lia) ltac:(cbn in *; lia)). cbn [combine map]. rewrite !sumf_cons. cbn [fst snd]. change (lsum (Rabs (w / W - v / V) :: map (fun wv : R * R => Rabs (fst wv / W - snd wv / V)) (combine ws vs))) with (Rabs (w / W - v / V) + lsum (map (fun wv : R * R => Rabs (fst wv / W - snd wv / V)) (combine ws vs))).
  set (k := spec_prof d (quad n N (psub x p))). assert (Hk : 0 <= k <= 1) by (split; [apply prof_pos|apply prof_le_1, HQ]).
  match goal with |- Rabs (w / W * k + ?a - (v / V * k + ?b)) <= _ => replace (w / W * k + a - (v / V * k + b)) with ((w / W - v / V) * k + (a - b)) by ring end.
  apply Rle_trans with (1 := Rabs_triang _ _). apply Rplus_le_compat; [|exact IH]. rewrite Rabs_mult, (Rabs_right k) by lra. rewrite <- (Rmult_1_r (Rabs _)) at 2. apply Rmult_le_compat_l; [apply Rabs_pos|lra].
Qed.
(** The box kernel jumps. *)
Lemma box_jumps delta : 0 < delta -> exists K K' f f' v x, built_kde 1 [pt1 0] [1] Box ident None K /\ built_kde 1 [pt1 (- delta)] [1] Box ident None K'
  /\ kde_density K true 1 None PNone = Ok f /\ kde_density K' true 1 None PNone = Ok f' /\ peak_of 1 Box ident v /\ 0 < v /\ kernel_dist 1 ident (pt1 0) (pt1 (- delta)) = delta /\ f x - f' x = v.
Proof.
  intros Hd. destruct (top_textbook 1 _ _ Box ident (kx 0 Box) ident (le_n 1) (kx_built 0 Box) (ident_inverse 1)) as (_ & _ & f & _ & _ & _ & Hf & _).
  destruct (top_textbook 1 _ _ Box ident (kx (- delta) Box) ident (le_n 1) (kx_built (- delta) Box) (ident_inverse 1)) as (_ & _ & f' & _ & _ & _ & Hf' & _).
  assert (HP : peak_of 1 Box ident (f (pt1 0))) by (exists (pt1 0), (kx 0 Box), f; split; [apply kx_built|split; [exact Hf|reflexivity]]).
  destruct (in_peaks _ _ _ _ _ _ _ true _ _ (le_n 1) (kx_built 0 Box) (ident_inverse 1) Hf HP) as [Hv Ef]. destruct (in_peaks _ _ _ _ _ _ _ true _ _ (le_n 1) (kx_built (- delta) Box) (ident_inverse 1) Hf' HP) as [_ Ef'].
  exists (kx 0 Box), (kx (- delta) Box), f, f', (f (pt1 0)), (pt1 1). split; [apply kx_built|]. split; [apply kx_built|]. split; [exact Hf|]. split; [exact Hf'|]. split; [exact HP|]. split; [exact Hv|]. split.
  - unfold kernel_dist. rewrite quad_1. unfold ident, psub, pt1. cbn [Nat.eqb]. replace (1 * ((0 - - delta) * (0 - - delta))) with (delta * delta) by ring. apply sqrt_square. lra.
  - rewrite (Ef (pt1 1)), Ef'. set (v := f (pt1 0)). unfold sumf. cbn [combine map fst snd]. rewrite !quad_1. unfold ident, psub, pt1. cbn [Nat.eqb spec_prof mass].
    destruct (Rle_dec (1 * ((1 - 0) * (1 - 0))) 1); [|lra]. destruct (Rle_dec (1 * ((1 - - delta) * (1 - - delta))) 1) as [C|_]; [exfalso; assert (0 < delta * delta) by (apply Rmult_lt_0_compat; exact Hd); lra|].
    unfold lsum; cbn. field.
Qed.
(** * Examples *)
Lemma three_built d : exists K K', built_kde 1 ([pt1 0] ++ pt1 9 :: [pt1 1]) ([1] ++ 1 :: [1]) d ident None K /\ built_kde 1 ([pt1 0] ++ [pt1 1]) ([1] ++ [1]) d ident None K'.
Proof.
  exists (mkKDE 1 [pt1 0; pt1 9; pt1 1] None 3 (Some (mkKernel d 1 ident)) None), (mkKDE 1 [pt1 0; pt1 1] None 2 (Some (mkKernel d 1 ident)) None).
  split; (split; [|split; [reflexivity|split; [apply ident_sym|apply ident_posdef]]]).
  - exists WNone, (BwAtom (BNum 1)), false, None, (Some ident), (Some 3). split; [left; split; reflexivity|]. unfold kde_init. cbn [length app Nat.eqb check_weights bind set_bandwidth compute_bandwidth]. unfold kernel_init. rewrite kernel_matrix_1. reflexivity.
  - exists WNone, (BwAtom (BNum 1)), false, None, (Some ident), (Some 2). split; [left; split; reflexivity|]. unfold kde_init. cbn [length app Nat.eqb check_weights bind set_bandwidth compute_bandwidth]. unfold kernel_init. rewrite kernel_matrix_1. reflexivity.
Qed.

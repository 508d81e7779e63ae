(** Accuracy of KDE.cdf in one dimension. *)
From Coquelicot Require Import Coquelicot.
From Coq Require Import ZArith FunctionalExtensionality Classical_Prop.
From Verif Require Import ProofIntegral ProofAffine Base ModelLinAlg ModelKernels ModelKDE ModelExtrema ModelInterp ModelResample ModelUtils ModelNd ModelGrid SpecLinAlg SpecIntegral SpecKernels SpecUtils SpecKDE SpecNd SpecReflected SpecCdfError
  ProofInterp ProofLinAlg ProofKernels ProofDensity ProofKDE ProofUtils ProofUtils2 ProofUtils3 ProofUtils4 ProofNested ProofNd ProofNd2 ProofGrid ProofTop ProofTop2 ProofTop3 ProofReflect1 ProofReflected ProofCdf ProofGrid3.
Open Scope R_scope.
Notation length := List.length.

Lemma rint_uniq (f : R -> R) a b (x y : R) : is_RInt f a b x -> is_RInt f a b y -> x = y.
Proof. intros H1 H2. rewrite <- (is_RInt_unique (V := R_CompleteNormedModule) f a b x H1). apply (is_RInt_unique (V := R_CompleteNormedModule)), H2. Qed.
(* ------------------------------------------------------------ the trapezoid rule for differences of monotone functions *)
Lemma cell_error (f A B : R -> R) c0 u v x J : u <= x <= v -> (forall s t, s <= t -> A s <= A t) -> (forall s t, s <= t -> B t <= B s) ->
  (forall t, u <= t <= v -> f t = A t + B t - c0) -> is_RInt f u x J ->
  Rabs ((x - u) * ((f u + f v) / 2) - J) <= (x - u) * ((A v - A u + B u - B v) / 2).
Proof.
  intros Hx HA HB Hf HJ. set (D := (A v - A u + B u - B v) / 2). set (m := (f u + f v) / 2).
  assert (Hb : forall t, u < t < x -> m - D <= f t <= m + D).
  { intros t Ht. unfold m, D. rewrite !Hf by lra. pose proof (HA u t ltac:(lra)). pose proof (HA t v ltac:(lra)). pose proof (HB u t ltac:(lra)). pose proof (HB t v ltac:(lra)). lra. }
  pose proof (is_RInt_const_r u x (m - D)) as H1. pose proof (is_RInt_const_r u x (m + D)) as H2.
  assert (L1 : (x - u) * (m - D) <= J) by (apply (is_RInt_le (fun _ => m - D) f u x); [lra|exact H1|exact HJ|intros t Ht; apply Hb, Ht]).
  assert (L2 : J <= (x - u) * (m + D)) by (apply (is_RInt_le f (fun _ => m + D) u x); [lra|exact HJ|exact H2|intros t Ht; apply Hb, Ht]).
  apply Rabs_le. split; nra.
Qed.
Definition trap (e f : nat -> R) (i : nat) : R := rsum i (fun j => (e (S j) - e j) * (f j + f (S j)) / 2).
Lemma nodes_error (f A B : R -> R) c0 (e : nat -> R) m h : increasing e m -> (forall i, (i < m)%nat -> e (S i) - e i <= h) ->
  (forall s t, s <= t -> A s <= A t) -> (forall s t, s <= t -> B t <= B s) -> (forall t, e O <= t <= e m -> f t = A t + B t - c0) ->
  forall i J, (i <= m)%nat -> is_RInt f (e O) (e i) J ->
  Rabs (trap e (fun j => f (e j)) i - J) <= h * ((A (e i) - A (e O) + B (e O) - B (e i)) / 2).
Proof.
  intros He Hh HA HB Hf. pose proof (incr_nondecr e m He) as Hn. induction i as [|i IH]; intros J Hi HJ.
  - assert (J = 0) as -> by (apply (rint_uniq f _ _ _ _ HJ), (is_RInt_point (V := R_NormedModule))). unfold trap. cbn [rsum]. rewrite Rminus_0_r, Rabs_R0. lra.
  - pose proof (Hn O i ltac:(lia) ltac:(lia)) as H0. pose proof (Hn i (S i) ltac:(lia) ltac:(lia)) as H1. pose proof (Hn (S i) m ltac:(lia) ltac:(lia)) as H2.
    destruct (is_RInt_sub f (e O) (e (S i)) (e O) (e i) J) as [J1 HJ1]; [lra|lra|lra|exact HJ|].
    destruct (is_RInt_sub f (e O) (e (S i)) (e i) (e (S i)) J) as [J2 HJ2]; [lra|lra|lra|exact HJ|].
    assert (J = J1 + J2) as ->. { apply (rint_uniq f _ _ _ _ HJ). exact (is_RInt_Chasles f _ _ _ _ _ HJ1 HJ2). }
    pose proof (IH J1 ltac:(lia) HJ1) as I1.
    pose proof (cell_error f A B c0 (e i) (e (S i)) (e (S i)) J2 ltac:(lra) HA HB ltac:(intros t Ht; apply Hf; lra) HJ2) as I2.
    unfold trap in *. cbn [rsum]. set (T := rsum i _) in *. pose proof (Hh i ltac:(lia)) as Hs.
    pose proof (HA (e i) (e (S i)) H1) as HAi. pose proof (HB (e i) (e (S i)) H1) as HBi.
    assert (I3 : (e (S i) - e i) * ((A (e (S i)) - A (e i) + B (e i) - B (e (S i))) / 2) <= h * ((A (e (S i)) - A (e i) + B (e i) - B (e (S i))) / 2)) by (apply Rmult_le_compat_r; lra).
    replace (T + (e (S i) - e i) * (f (e i) + f (e (S i))) / 2 - (J1 + J2)) with ((T - J1) + ((e (S i) - e i) * ((f (e i) + f (e (S i))) / 2) - J2)) by field.
    eapply Rle_trans; [apply Rabs_triang|]. lra.
Qed.
Lemma trap_error (f A B : R -> R) c0 (e : nat -> R) m h x J : (1 <= m)%nat -> increasing e m -> (forall i, (i < m)%nat -> e (S i) - e i <= h) ->
  (forall s t, s <= t -> A s <= A t) -> (forall s t, s <= t -> B t <= B s) -> (forall t, e O <= t <= e m -> f t = A t + B t - c0) ->
  e O <= x <= e m -> is_RInt f (e O) x J ->
  Rabs (interp e (trap e (fun j => f (e j))) m x - J) <= h * ((A (e m) - A (e O) + B (e O) - B (e m)) / 2).
Proof.
  intros Hm He Hh HA HB Hf Hx HJ. pose proof (incr_nondecr e m He) as Hn. destruct (interp_bin_spec e m x Hm Hn Hx) as [Hlo Hb].
  unfold interp. set (i := interp_bin e m x) in *.
  pose proof (Hn O i ltac:(lia) ltac:(lia)) as H0. pose proof (He i (S i) ltac:(lia) ltac:(lia)) as H1. pose proof (Hn (S i) m ltac:(lia) ltac:(lia)) as H2.
  destruct (is_RInt_sub f (e O) x (e O) (e i) J) as [J1 HJ1]; [lra|lra|lra|exact HJ|].
  destruct (is_RInt_sub f (e O) x (e i) x J) as [J2 HJ2]; [lra|lra|lra|exact HJ|].
  assert (J = J1 + J2) as ->. { apply (rint_uniq f _ _ _ _ HJ). exact (is_RInt_Chasles f _ _ _ _ _ HJ1 HJ2). }
  pose proof (nodes_error f A B c0 e m h He Hh HA HB Hf i J1 ltac:(lia) HJ1) as I1.
  pose proof (cell_error f A B c0 (e i) (e (S i)) x J2 ltac:(lra) HA HB ltac:(intros t Ht; apply Hf; lra) HJ2) as I2.
  pose proof (Hh i ltac:(lia)) as Hs. pose proof (HA (e i) (e (S i)) ltac:(lra)) as HAi. pose proof (HB (e i) (e (S i)) ltac:(lra)) as HBi.
  pose proof (HA (e (S i)) (e m) ltac:(lra)) as HAm. pose proof (HB (e (S i)) (e m) ltac:(lra)) as HBm.
  assert (I3 : (x - e i) * ((A (e (S i)) - A (e i) + B (e i) - B (e (S i))) / 2) <= h * ((A (e (S i)) - A (e i) + B (e i) - B (e (S i))) / 2)) by (apply Rmult_le_compat_r; lra).
  assert (I4 : 0 <= h * ((A (e m) - A (e (S i)) + B (e (S i)) - B (e m)) / 2)) by (apply Rmult_le_pos; lra).
  replace (trap e (fun j => f (e j)) (S i)) with (trap e (fun j => f (e j)) i + (e (S i) - e i) * (f (e i) + f (e (S i))) / 2) by reflexivity.
  set (T := trap e _ i) in *.
  replace (T + (T + (e (S i) - e i) * (f (e i) + f (e (S i))) / 2 - T) / (e (S i) - e i) * (x - e i) - (J1 + J2)) with ((T - J1) + ((x - e i) * ((f (e i) + f (e (S i))) / 2) - J2)) by (field; lra).
  eapply Rle_trans; [apply Rabs_triang|]. lra.
Qed.

(* ------------------------------------------------------------ densities are sums of hills *)
Lemma spec_prof_anti d r s : 0 <= r <= s -> spec_prof d s <= spec_prof d r.
Proof.
  intros H. destruct d; cbn [spec_prof].
  - destruct (Req_dec r s) as [->|Hn]; [lra|]. left. apply exp_increasing. lra.
  - destruct (Rle_dec s 1), (Rle_dec r 1); lra.
  - destruct (Rle_dec s 1), (Rle_dec r 1); lra.
  - destruct (Rle_dec s 1), (Rle_dec r 1); try lra.
    + assert (0 <= 1 - s <= 1 - r) as [Ha Hb] by lra. apply Rmult_le_compat; try lra; [apply Rmult_le_pos; lra|]. apply Rmult_le_compat; lra.
    + apply Rmult_le_pos; [apply Rmult_le_pos; lra|lra].
Qed.
Definition hill d m (L : list (R * R)) (t : R) : R := sumf (fun cw => snd cw * spec_prof d ((t - fst cw) * (t - fst cw) / m)) L.
Definition rise d m (L : list (R * R)) (t : R) : R := sumf (fun cw => snd cw * spec_prof d ((Rmin t (fst cw) - fst cw) * (Rmin t (fst cw) - fst cw) / m)) L.
Definition fall d m (L : list (R * R)) (t : R) : R := sumf (fun cw => snd cw * spec_prof d ((Rmax t (fst cw) - fst cw) * (Rmax t (fst cw) - fst cw) / m)) L.
Definition tops d (L : list (R * R)) : R := sumf (fun cw => snd cw * spec_prof d 0) L.
Lemma hill_split d m L t : hill d m L t = rise d m L t + fall d m L t - tops d L.
Proof.
  unfold hill, rise, fall, tops. induction L as [|[c w] L IH]; [rewrite !sumf_nil; ring|].
  rewrite !sumf_cons, IH. cbn [fst snd]. destruct (Rle_dec t c) as [H|H].
  - rewrite Rmin_left, Rmax_right by exact H. replace ((c - c) * (c - c) / m) with 0 by (unfold Rdiv; ring). ring.
  - rewrite Rmin_right, Rmax_left by lra. replace ((c - c) * (c - c) / m) with 0 by (unfold Rdiv; ring). ring.
Qed.
Lemma sq_div_le m u v : 0 < m -> u * u <= v * v -> 0 <= u * u / m <= v * v / m.
Proof. intros Hm H. pose proof (Rinv_0_lt_compat m Hm). split; [apply Rmult_le_pos; [apply Rle_0_sqr|lra]|apply Rmult_le_compat_r; lra]. Qed.
Lemma rise_mono d m L s t : 0 < m -> (forall cw, In cw L -> 0 <= snd cw) -> s <= t -> rise d m L s <= rise d m L t.
Proof.
  intros Hm Hw Hst. apply sumf_le. intros [c w] Hi. specialize (Hw _ Hi). cbn [fst snd] in *. apply Rmult_le_compat_l; [exact Hw|]. apply spec_prof_anti, sq_div_le; [exact Hm|].
  assert (Rmin s c <= Rmin t c <= c) by (unfold Rmin; destruct (Rle_dec s c), (Rle_dec t c); lra). assert (0 <= c - Rmin t c <= c - Rmin s c) as [Ha Hb] by lra.
  replace ((Rmin t c - c) * (Rmin t c - c)) with ((c - Rmin t c) * (c - Rmin t c)) by ring. replace ((Rmin s c - c) * (Rmin s c - c)) with ((c - Rmin s c) * (c - Rmin s c)) by ring. apply Rmult_le_compat; lra.
Qed.
Lemma fall_mono d m L s t : 0 < m -> (forall cw, In cw L -> 0 <= snd cw) -> s <= t -> fall d m L t <= fall d m L s.
Proof.
  intros Hm Hw Hst. apply sumf_le. intros [c w] Hi. specialize (Hw _ Hi). cbn [fst snd] in *. apply Rmult_le_compat_l; [exact Hw|]. apply spec_prof_anti, sq_div_le; [exact Hm|].
  assert (c <= Rmax s c <= Rmax t c) by (unfold Rmax; destruct (Rle_dec s c), (Rle_dec t c); lra). apply Rmult_le_compat; lra.
Qed.
Lemma rise_range d m L t : 0 < m -> (forall cw, In cw L -> 0 <= snd cw) -> 0 <= rise d m L t <= tops d L.
Proof.
  intros Hm Hw. split.
  - apply sumf_nonneg. intros cw Hi. apply Rmult_le_pos; [apply Hw, Hi|apply spec_prof_nonneg'].
  - apply sumf_le. intros cw Hi. apply Rmult_le_compat_l; [apply Hw, Hi|]. apply spec_prof_le. apply Rmult_le_pos; [apply Rle_0_sqr|left; apply Rinv_0_lt_compat, Hm].
Qed.
Lemma fall_range d m L t : 0 < m -> (forall cw, In cw L -> 0 <= snd cw) -> 0 <= fall d m L t <= tops d L.
Proof.
  intros Hm Hw. split.
  - apply sumf_nonneg. intros cw Hi. apply Rmult_le_pos; [apply Hw, Hi|apply spec_prof_nonneg'].
  - apply sumf_le. intros cw Hi. apply Rmult_le_compat_l; [apply Hw, Hi|]. apply spec_prof_le. apply Rmult_le_pos; [apply Rle_0_sqr|left; apply Rinv_0_lt_compat, Hm].
Qed.
Lemma hill_trap_error d mm L (f : R -> R) (e : nat -> R) m h x J : 0 < mm -> (forall cw, In cw L -> 0 <= snd cw) -> (1 <= m)%nat -> increasing e m -> (forall i, (i < m)%nat -> e (S i) - e i <= h) ->
  (forall t, e O <= t <= e m -> f t = hill d mm L t) -> e O <= x <= e m -> is_RInt f (e O) x J ->
  Rabs (interp e (trap e (fun j => f (e j))) m x - J) <= h * tops d L.
Proof.
  intros Hmm Hw Hm He Hh Hf Hx HJ.
  eapply Rle_trans; [apply (trap_error f (rise d mm L) (fall d mm L) (tops d L) e m h x J Hm He Hh)|].
  - intros s t. apply rise_mono; assumption.
  - intros s t. apply fall_mono; assumption.
  - intros t Ht. rewrite Hf by exact Ht. apply hill_split.
  - exact Hx.
  - exact HJ.
  - pose proof (rise_range d mm L (e m) Hmm Hw). pose proof (rise_range d mm L (e O) Hmm Hw). pose proof (fall_range d mm L (e m) Hmm Hw). pose proof (fall_range d mm L (e O) Hmm Hw).
    assert (0 <= h). { pose proof (Hh O ltac:(lia)). pose proof (He 0%nat 1%nat ltac:(lia) ltac:(lia)). lra. }
    apply Rmult_le_compat_l; lra.
Qed.

(* ------------------------------------------------------------ the density of a one-dimensional KDE *)
Lemma quad_1 N (y : pt) : quad 1 N y = N O O * (y O * y O).
Proof. unfold quad. cbn [rsum]. ring. Qed.
Lemma inverse_1 (M : mat) : 0 < M O O -> is_inverse 1 M (fun _ _ => / M O O).
Proof. intros H i j Hi Hj. assert (i = O) by lia. assert (j = O) by lia. subst i j. cbn [rsum]. unfold ident. cbn. split; field; lra. Qed.
Lemma spec_sum_hill d (M : mat) k wd (x : pt) : k * spec_sum d 1 (fun _ _ => / M O O) wd x = hill d (M O O) (map (fun dw => (fst dw O, k * snd dw)) wd) (x O).
Proof.
  unfold spec_sum, hill. rewrite sumf_map, <- sumf_scal. apply sumf_ext. intros [q w] _. cbn [fst snd]. rewrite quad_1. unfold psub. rewrite Rmult_assoc. f_equal. f_equal. f_equal.
  unfold Rdiv. ring.
Qed.
Lemma hill_app d m L L' t : hill d m (L ++ L') t = hill d m L t + hill d m L' t.
Proof. apply sumf_app. Qed.
Lemma tops_app d L L' : tops d (L ++ L') = tops d L + tops d L'.
Proof. apply sumf_app. Qed.
Lemma tops_map d k (g : pt * R -> R) wd : tops d (map (fun dw => (g dw, k * snd dw)) wd) = k * sumf snd wd * spec_prof d 0.
Proof. unfold tops. rewrite sumf_map. cbn [snd]. rewrite <- sumf_scal, <- sumf_scal_r. reflexivity. Qed.
Lemma within_1 r (x : pt) : length r = 1%nat -> within r (pt1 (x O)) 0 -> within_from r x 0.
Proof.
  intros Hr H j Hj. destruct j as [|j]; [exact H|]. intros lo hi E. rewrite nth_overflow in E by lia. discriminate E.
Qed.
Lemma hills_1 data ws d M refl K f p : built_kde 1 data ws d M refl K -> kde_density K true 1 None PNone = Ok f -> peak d (M O O) p ->
  0 < M O O /\ exists L, (forall x : pt, allowed refl (x O) -> f x = hill d (M O O) L (x O)) /\ (forall cw, In cw L -> 0 <= snd cw) /\ tops d L = INR (S (length (walls refl))) * p.
Proof.
  intros HB Hf [Z [HZ ->]]. destruct (built_inv _ _ _ _ _ _ _ HB) as (En & Ed & Hne & Er & Ew & Hl & Hnn & Hp & Et & Ek & Hs & Hpd).
  assert (HM : 0 < M O O) by (apply (posdef_diag_pos 1); [exact Hpd|lia]). split; [exact HM|]. pose proof (inverse_1 M HM) as HI.
  assert (HZ' : forall Z', (forall base, is_tintN 1 (fun y => spec_prof d (quad 1 (fun _ _ => / M O O) y)) base Z') -> Z' = Z).
  { intros Z' H. specialize (H (fun _ => 0)). apply tintN_1 in H. apply (tint_unique _ _ _ H). apply tint_ext with (2 := HZ). intros t. rewrite quad_1. unfold upd. cbn. f_equal. unfold Rdiv. ring. }
  assert (Hpos : forall Z', 0 < Z' -> forall q w, In (q, w) (combine data ws) -> 0 <= / (lsum ws * Z') * w).
  { intros Z' H0 q w H. apply in_combine_r in H. apply Rmult_le_pos; [left; apply Rinv_0_lt_compat, Rmult_lt_0_compat; assumption|apply Hnn, H]. }
  assert (HS : sumf snd (combine data ws) = lsum ws) by (apply ProofAffine.sumf_snd_combine; exact Hl).
  destruct refl as [r|].
  - assert (Hr : length r = 1%nat).
    { rewrite (density_as_kernel _ _ _ _ _ _ _ true None HB) in Hf. cbv beta iota zeta in Hf. destruct (Nat.eqb_spec (length r) 1) as [E|E]; [exact E|discriminate Hf]. }
    destruct (top_reflected 1 data ws d M (Some r) K _ true r (le_n 1) HB HI Hr) as (Z' & f' & H0 & HZZ & Hf' & Hv). rewrite (HZ' Z' HZZ) in *. clear Z' HZZ HZ'.
    assert (f' = f) as ->. { rewrite (density_as_kernel _ _ _ _ _ _ _ true None HB) in Hf. rewrite (density_as_kernel _ _ _ _ _ _ _ true (Some r) HB) in Hf'. rewrite Hf in Hf'. injection Hf' as ->. reflexivity. }
    set (k := / (lsum ws * Z)). exists (map (fun dw : pt * R => (fst dw O, k * snd dw)) (combine data ws)
      ++ flat_map (fun v => map (fun dw : pt * R => (2 * v - fst dw O, k * snd dw)) (combine data ws)) (walls (Some r))). split; [|split].
    + intros x Hx. pose proof (within_1 r x Hr (Hx r eq_refl)) as Hw. destruct (Hv x) as (s0 & s & E & H1 & _ & H2). rewrite E, (H1 Hw). cbn [rsum]. destruct (H2 O ltac:(lia)) as [H3 _]. rewrite (H3 Hw).
      cbn [mass]. rewrite hill_app, <- spec_sum_hill. unfold walls. set (bs := boundaries (nth 0 r None)).
      assert (EB : hill d (M O O) (flat_map (fun v => map (fun dw : pt * R => (2 * v - fst dw O, k * snd dw)) (combine data ws)) bs) (x O)
                   = k * sumf (fun v => spec_sum d 1 (fun _ _ => / M O O) (mirrored_data 0 v (combine data ws)) x) bs).
      { induction bs as [|v bs IH]; [cbn; rewrite Rmult_0_r; reflexivity|]. cbn [flat_map]. rewrite hill_app, IH, sumf_cons, Rmult_plus_distr_l. f_equal. rewrite spec_sum_hill. unfold mirrored_data. rewrite map_map. reflexivity. }
      rewrite EB. unfold k. field. split; lra.
    + intros cw Hi. apply in_app_or in Hi. destruct Hi as [Hi|Hi].
      * apply in_map_iff in Hi. destruct Hi as [[q w] [<- Hi]]. apply (Hpos Z H0 _ _ Hi).
      * apply in_flat_map in Hi. destruct Hi as [v [_ Hi]]. apply in_map_iff in Hi. destruct Hi as [[q w] [<- Hi]]. apply (Hpos Z H0 _ _ Hi).
    + rewrite tops_app, tops_map, HS. set (bs := walls (Some r)).
      assert (EB : tops d (flat_map (fun v => map (fun dw : pt * R => (2 * v - fst dw O, k * snd dw)) (combine data ws)) bs) = INR (length bs) * (spec_prof d 0 / Z)).
      { induction bs as [|v bs IH]; [cbn; rewrite Rmult_0_l; reflexivity|]. cbn [flat_map length]. rewrite tops_app, IH, tops_map, HS, S_INR. unfold k. field. split; lra. }
      rewrite EB, S_INR. unfold k. field. split; lra.
  - destruct (top_textbook 1 data ws d M K _ (le_n 1) HB HI) as (Z' & f0 & g & H0 & HZZ & _ & Hg & Hv). rewrite (HZ' Z' HZZ) in *. clear Z' HZZ HZ'.
    change (kde_density K true 1 None PNone = Ok g) in Hg. rewrite Hf in Hg. injection Hg as <-.
    set (k := / (lsum ws * Z)). exists (map (fun dw : pt * R => (fst dw O, k * snd dw)) (combine data ws)). split; [|split].
    + intros x _. destruct (Hv x) as [E1 E2]. rewrite E2, E1, <- spec_sum_hill. unfold k. field. split; lra.
    + intros cw Hi. apply in_map_iff in Hi. destruct Hi as [[q w] [<- Hi]]. apply (Hpos Z H0 _ _ Hi).
    + rewrite tops_map, HS. cbn [walls length INR]. unfold k. field. split; lra.
Qed.
Lemma hill_int d m L Z a b : is_tint (fun y => spec_prof d (y * y / m)) Z -> a <= b -> exists y, is_RInt (hill d m L) a b y.
Proof.
  intros HZ Hab. assert (H : is_tint (hill d m L) (sumf (fun cw => snd cw * Z) L)).
  { unfold hill. apply (tint_sumf (fun cw t => snd cw * spec_prof d ((t - fst cw) * (t - fst cw) / m))). intros [c w] _. cbn [fst snd]. apply tint_scal.
    pose proof (tint_comp_lin _ _ 1 (- c) Rlt_0_1 HZ) as H. rewrite Rdiv_1 in H. apply tint_ext with (2 := H). intros t. cbv beta. f_equal. f_equal. ring. }
  exact (tint_ex_RInt _ _ a b H Hab).
Qed.
Lemma allowed_between refl a b t : allowed refl a -> allowed refl b -> a <= t <= b -> allowed refl t.
Proof.
  intros Ha Hb Ht r Hr lo hi E. destruct (Ha r Hr lo hi E) as [A1 A2]. destruct (Hb r Hr lo hi E) as [B1 B2]. unfold pt1 in *. split; intros v Hv; [specialize (A1 v Hv)|specialize (B2 v Hv)]; lra.
Qed.

(* ------------------------------------------------------------ the value of the cumulative distribution *)
Lemma interp_div x y m T v : interp x (fun i => y i / T) m v = interp x y m v / T.
Proof. unfold interp. unfold Rdiv. ring. Qed.
Lemma trap_firstn g f i : (i < length g)%nat -> trapezoid (firstn (S i) g) f = trap (vget g) f i.
Proof.
  intros Hi. unfold trapezoid, trap. rewrite firstn_length. replace (Nat.min (S i) (length g) - 1)%nat with i by lia. apply rsum_ext. intros j Hj. rewrite !nth_firstn_lt by lia. reflexivity.
Qed.
Lemma cdf_run K g f : is_grid [g] -> kde_density K true 1 None PNone = Ok f -> (forall x, 0 <= f x) -> (forall (x : pt) i, (i < length g)%nat -> x O = nth i g 0 -> f x = f (pt1 (x O))) ->
  0 < trap (vget g) (fun i => f (pt1 (vget g i))) (length g - 1) -> forall x,
  kde_cdf K [g] false false [x] = Ok (Fin (interp (vget g) (trap (vget g) (fun i => f (pt1 (vget g i)))) (length g - 1) x / trap (vget g) (fun i => f (pt1 (vget g i))) (length g - 1))).
Proof.
  intros HG Hf Hpos Hx1 HT. destruct (HG g (or_introl eq_refl)) as [Hl Hi].
  destruct (density_grid_pointwise K true None PNone [g] f Hf) as [a [Ha [Hs Hv]]]. change (map (@length R) [g]) with (lens [g]) in *.
  assert (Hne : forall x, In x [g] -> x <> [] /\ incr_list x).
  { intros x Hx. destruct (HG x Hx) as [H1 H2]. split; [intros ->; cbn in H1; lia|]. intros i j Hij Hj. apply H2. lia. }
  assert (Hap : forall idx, SpecNd.inb (shp a) idx -> 0 <= at_ a idx) by (intros idx Hx; rewrite Hv by exact Hx; apply Hpos).
  destruct (cumtrapz_value a [g] Hs (fun x Hx => proj1 (Hne x Hx))) as [c [Hc [Hcs [Hcv [Hc0 Hcl]]]]].
  destruct (cumtrapz_monotone a [g] Hs Hne Hap) as [c' [Hc' Hcm]]. assert (c' = c) by congruence. subst c'.
  assert (Hmono : mono_idx (shp c) (at_ c)) by (intros i j Hj Hij; rewrite Hcs in Hj; apply (Hcm i j Hj Hij)).
  set (h := fun i => f (pt1 (vget g i))) in *.
  assert (Hin1 : forall i, (i < length g)%nat -> SpecNd.inb (shp a) [i]) by (intros i Hil; rewrite Hs; constructor; [exact Hil|constructor]).
  assert (Hval : forall i, (i < length g)%nat -> at_ c [i] = trap (vget g) h i).
  { intros i Hil. rewrite Hcv by (apply Hin1, Hil). cbn [cut_edges trapezoids]. rewrite <- trap_firstn by exact Hil. apply trapezoid_ext. intros j Hj. rewrite firstn_length in Hj. rewrite Hv by (apply Hin1; lia). rewrite (Hx1 _ j) by (try lia; reflexivity). reflexivity. }
  assert (Hmax : nd_max c = trap (vget g) h (length g - 1)).
  { rewrite nd_max_mono; [|rewrite Hcs, Hs; apply lens_pos, HG|exact Hmono]. rewrite Hcs, Hs. apply Hval. lia. }
  set (T := trap (vget g) h (length g - 1)) in *.
  intros x. unfold kde_cdf. rewrite Ha. cbn [bind]. rewrite Hc. cbn [bind]. rewrite ascending_grid by exact HG. cbn [negb]. rewrite Hmax. destruct (Reqb_spec T 0); [lra|].
  f_equal. f_equal. rewrite rgi_nested by reflexivity. cbn [nint]. rewrite <- interp_div. unfold interp. cbn [map_nd at_].
  set (lo := interp_bin (vget g) (length g - 1) x). assert (S lo < length g)%nat.
  { unfold lo, interp_bin. lia. }
  rewrite !Hval by lia. reflexivity.
Qed.
Lemma quot_error T Tb I Ib E : 0 < Tb -> 0 < Ib -> 0 <= T <= Tb -> Rabs (T - I) <= E -> Rabs (Tb - Ib) <= E -> Rabs (T / Tb - I / Ib) <= 2 * E / Ib.
Proof.
  intros HTb HIb HT H1 H2. replace (T / Tb - I / Ib) with (((T - I) - T / Tb * (Tb - Ib)) / Ib) by (field; lra).
  unfold Rdiv at 1 3. rewrite Rabs_mult, (Rabs_right (/ Ib)) by (apply Rle_ge; left; apply Rinv_0_lt_compat, HIb). apply Rmult_le_compat_r; [left; apply Rinv_0_lt_compat, HIb|].
  assert (Hq : 0 <= T / Tb <= 1). { split; [apply Rmult_le_pos; [lra|left; apply Rinv_0_lt_compat, HTb]|]. apply (Rmult_le_reg_r Tb); [exact HTb|]. unfold Rdiv. rewrite Rmult_assoc, Rinv_l; lra. }
  eapply Rle_trans; [apply Rabs_triang|]. rewrite Rabs_Ropp, Rabs_mult, (Rabs_right (T / Tb)) by lra. pose proof (Rabs_pos (Tb - Ib)).
  assert (T / Tb * Rabs (Tb - Ib) <= 1 * Rabs (Tb - Ib)) by (apply Rmult_le_compat_r; lra). lra.
Qed.
Lemma grid_1 g : is_grid [g] -> (1 <= length g - 1)%nat /\ increasing (vget g) (length g - 1).
Proof. intros H. exact (is_grid_head g [] H). Qed.
Theorem cdf_error data ws d M refl K g h p f total : built_kde 1 data ws d M refl K -> is_grid [g] -> spaced h g -> peak d (M O O) p ->
  kde_density K true 1 None PNone = Ok f -> allowed refl (first g) -> allowed refl (final g) -> prob_between f (first g) (final g) total ->
  INR (S (length (walls refl))) * p * h < total ->
  forall x, first g <= x <= final g -> exists v q, kde_cdf K [g] false false [x] = Ok (Fin v) /\ prob_between f (first g) x q
    /\ Rabs (v - q / total) <= 2 * (INR (S (length (walls refl))) * p * h) / total.
Proof.
  intros HB HG Hh Hp Hf Ha Hb HI Hs x Hx. destruct (hills_1 _ _ _ _ _ _ _ _ HB Hf Hp) as [HM (L & HL & Hw & Ht)]. destruct Hp as [Z [HZ Ep]].
  destruct (grid_1 g HG) as [Hm He]. set (m := (length g - 1)%nat) in *. set (e := vget g) in *.
  assert (E0 : first g = e O) by reflexivity. assert (Em : final g = e m) by reflexivity. rewrite E0, Em in *.
  assert (Hh' : forall i, (i < m)%nat -> e (S i) - e i <= h) by (intros i Hi; apply Hh; lia).
  pose proof (incr_nondecr e m He) as Hn.
  assert (HF : forall t, e O <= t <= e m -> f (pt1 t) = hill d (M O O) L t) by (intros t Htt; apply (HL (pt1 t)), (allowed_between refl (e O) (e m)); assumption).
  assert (Hab : e O < e m) by (apply He; lia).
  assert (HE : forall y J, e O <= y <= e m -> is_RInt (fun t => f (pt1 t)) (e O) y J -> Rabs (interp e (trap e (fun j => f (pt1 (e j)))) m y - J) <= INR (S (length (walls refl))) * p * h).
  { intros y J Hy HJ. rewrite <- Ht, Rmult_comm. apply (hill_trap_error d (M O O) L (fun t => f (pt1 t)) e m h y J); assumption. }
  assert (HP : forall i, (i <= m)%nat -> 0 <= f (pt1 (e i))).
  { intros i Hi. rewrite HF by (split; apply Hn; lia). apply sumf_nonneg. intros cw Hcw. apply Rmult_le_pos; [apply Hw, Hcw|apply spec_prof_nonneg']. }
  set (T := trap e (fun j => f (pt1 (e j)))) in *.
  assert (HTm : nondecreasing T m).
  { intros i j Hij Hj. induction Hij as [|j Hij IH]; [lra|]. eapply Rle_trans; [apply IH; lia|]. unfold T, trap. cbn [rsum].
    assert (0 <= (e (S j) - e j) * (f (pt1 (e j)) + f (pt1 (e (S j)))) / 2); [|lra]. apply Rmult_le_pos; [|lra]. pose proof (HP j ltac:(lia)). pose proof (HP (S j) ltac:(lia)). pose proof (Hn j (S j) ltac:(lia) ltac:(lia)). apply Rmult_le_pos; lra. }
  assert (HTb : Rabs (T m - total) <= INR (S (length (walls refl))) * p * h).
  { rewrite <- (interp_knot e T m m Hm He (le_n m)). apply HE; [lra|exact HI]. }
  assert (HTp : 0 < T m) by (apply Rabs_le_between in HTb; lra).
  destruct (hill_int d (M O O) L Z (e O) x HZ) as [q Hq]; [lra|].
  assert (Hq' : is_RInt (fun t => f (pt1 t)) (e O) x q).
  { apply is_RInt_ext with (2 := Hq). intros t Htt. rewrite Rmin_left, Rmax_right in Htt by lra. symmetry. apply HF. lra. }
  exists (interp e T m x / T m), q. split; [|split; [exact Hq'|]].
  - apply cdf_run; [exact HG|exact Hf| | |exact HTp].
    + intros y. destruct (proj1 HB) as (w & b & diag & resc & cova & neffa & _ & HK). exact (kde_nonneg _ _ _ _ _ _ _ _ _ _ _ _ _ _ _ _ _ HK Hf).
    + intros y i Hi Hy. assert (allowed refl (y O)) by (rewrite Hy; apply (allowed_between refl (e O) (e m)); try assumption; split; apply Hn; lia). rewrite (HL y), (HL (pt1 (y O))) by assumption. reflexivity.
  - assert (0 < total). { eapply Rle_lt_trans; [|exact Hs]. eapply Rle_trans; [apply Rabs_pos|exact HTb]. }
    apply quot_error; [exact HTp|assumption| |apply HE; [lra|exact Hq']|exact HTb].
    destruct (interp_range e T m x Hm He HTm Hx) as [R1 R2]. split; [|exact R2]. replace 0 with (T O) by reflexivity. exact R1.
Qed.
Lemma upto_iff (f : R -> R) x l : is_RInt_gen f (Rbar_locally m_infty) (at_point x) l <->
  (forall eps, 0 < eps -> exists N, forall u, u < - N -> exists y, is_RInt f u x y /\ Rabs (y - l) < eps).
Proof.
  split.
  - intros H eps Heps. specialize (H (fun y => Rabs (y - l) < eps)).
    assert (Hl : locally l (fun y => Rabs (y - l) < eps)) by (exists (mkposreal eps Heps); intros y Hy; exact Hy).
    specialize (H Hl). destruct H as [Q R0 HQ HR H]. destruct HQ as [M1 HM1]. exists (- M1). intros u Hu.
    destruct (H u x) as [y [Hy1 Hy2]]; [apply HM1; lra|exact HR|]. exists y. split; assumption.
  - intros H P [[eps Heps] HP]. destruct (H eps Heps) as [N HN].
    apply (Filter_prod _ _ _ (fun a => a < - N) (fun b => b = x)).
    + exists (- N). intros y Hy; exact Hy.
    + reflexivity.
    + intros a b Ha ->. destruct (HN a Ha) as [y [Hy1 Hy2]]. exists y. split; [exact Hy1|]. apply HP. exact Hy2.
Qed.
(** What lies below the grid. *)
Lemma below_error (f : R -> R) a b x total q qx one : (forall t, 0 <= f t) -> is_tint f one -> a <= x <= b -> is_RInt f a b total -> is_RInt f a x qx ->
  is_RInt_gen f (Rbar_locally m_infty) (at_point x) q -> 0 <= q - qx <= one - total.
Proof.
  intros Hf H1 Hx Hab Hax Hq. rewrite upto_iff in Hq.
  assert (G : forall eps, 0 < eps -> - eps <= q - qx <= one - total + eps); [|split; apply Rnot_lt_le; intros HH].
  { intros eps Heps. destruct (Hq eps Heps) as [N HN]. set (u := Rmin a (- N - 1)). assert (Hu : u <= a /\ u < - N) by (unfold u; split; [apply Rmin_l|]; pose proof (Rmin_r a (- N - 1)); lra).
    destruct (HN u (proj2 Hu)) as [y [Hy1 Hy2]].
    destruct (is_RInt_sub f u x u a y) as [z Hz]; [lra|lra|lra|exact Hy1|].
    pose proof (is_RInt_Chasles f u a x z qx Hz Hax) as C1. pose proof (rint_uniq f u x _ _ Hy1 C1) as E1. change (y = z + qx) in E1.
    pose proof (is_RInt_Chasles f u a b z total Hz Hab) as C2. change (is_RInt f u b (z + total)) in C2.
    assert (z + total <= one) by (apply (tint_split f one u b); [exact H1|lra|exact C2|exact Hf]).
    assert (0 <= z). { apply (is_RInt_le (fun _ => 0) f u a 0 z); [lra| |exact Hz|intros t _; apply Hf]. pose proof (is_RInt_const_r u a 0) as H0. rewrite Rmult_0_r in H0. exact H0. }
    apply Rabs_lt_between in Hy2. lra. }
  - specialize (G ((qx - q) / 2)). lra.
  - specialize (G ((q - qx - (one - total)) / 2)). lra.
Qed.
Lemma density_nonneg data ws d M refl K f : built_kde 1 data ws d M refl K -> kde_density K true 1 None PNone = Ok f -> forall x, 0 <= f x.
Proof. intros HB Hf x. destruct (proj1 HB) as (w & b & diag & resc & cova & neffa & _ & HK). exact (kde_nonneg _ _ _ _ _ _ _ _ _ _ _ _ _ _ _ _ _ HK Hf). Qed.
Lemma density_total_1 data ws d M K f : built_kde 1 data ws d M None K -> kde_density K true 1 None PNone = Ok f -> is_tint (fun t => f (pt1 t)) 1.
Proof.
  intros HB Hf. destruct (top_integral 1 data ws d M K true (fun _ => 0) (le_n 1) HB) as [f' [Hf' HI]]. rewrite Hf in Hf'. injection Hf' as <-. apply tintN_1 in HI. cbn [mass] in HI.
  apply tint_ext with (2 := HI). intros t.
  destruct (built_inv _ _ _ _ _ _ _ HB) as (En & Ed & Hne & Er & Ew & Hl & Hnn & Hp & Et & Ek & Hs & Hpd).
  assert (HM : 0 < M O O) by (apply (posdef_diag_pos 1); [exact Hpd|lia]).
  destruct (top_textbook 1 data ws d M K _ (le_n 1) HB (inverse_1 M HM)) as (Z & f0 & g & H0 & _ & _ & Hg & Hv). change (kde_density K true 1 None PNone = Ok g) in Hg. rewrite Hf in Hg. injection Hg as <-.
  destruct (Hv (upd (fun _ => 0) 0 t)) as [E1 E2]. destruct (Hv (pt1 t)) as [E3 E4]. rewrite E2, E1, E4, E3.
  reflexivity.
Qed.
Lemma upto_exists (f : R -> R) l x : (forall t, 0 <= f t) -> is_tint f l -> exists q, is_RInt_gen f (Rbar_locally m_infty) (at_point x) q.
Proof.
  intros Hf Hl. set (E := fun y : R => exists u, u <= x /\ is_RInt f u x y).
  destruct (completeness E) as [q [Hq1 Hq2]].
  - exists l. intros y [u [Hu Hy]]. exact (tint_split f l u x y Hl Hu Hy Hf).
  - destruct (tint_ex_RInt f l x x Hl (Rle_refl x)) as [y Hy]. exists y. exists x. split; [lra|exact Hy].
  - exists q. apply upto_iff. intros eps Heps.
    assert (G : exists u0 y0, u0 <= x /\ is_RInt f u0 x y0 /\ q - eps < y0).
    { apply NNPP. intros HN. assert (Hub : is_upper_bound E (q - eps)); [|specialize (Hq2 _ Hub); lra]. intros y [u [Hu Hy]]. apply Rnot_lt_le. intros HH. apply HN. exists u, y. auto. }
    destruct G as (u0 & y0 & Hu0 & Hy0 & Hlt). exists (- u0). intros u Hu. rewrite Ropp_involutive in Hu.
    destruct (tint_ex_RInt f l u x Hl) as [y Hy]; [lra|]. exists y. split; [exact Hy|].
    assert (y <= q) by (apply Hq1; exists u; split; [lra|exact Hy]).
    destruct (is_RInt_sub f u x u u0 y) as [z Hz]; [lra|lra|lra|exact Hy|]. pose proof (rint_uniq f u x _ _ Hy (is_RInt_Chasles f u u0 x z y0 Hz Hy0)) as E1. change (y = z + y0) in E1.
    assert (0 <= z). { apply (is_RInt_le (fun _ => 0) f u u0 0 z); [lra| |exact Hz|intros t _; apply Hf]. pose proof (is_RInt_const_r u u0 0) as H0. rewrite Rmult_0_r in H0. exact H0. }
    apply Rabs_lt_between. lra.
Qed.
Theorem cdf_error_upto data ws d M K g h p f total : built_kde 1 data ws d M None K -> is_grid [g] -> spaced h g -> peak d (M O O) p ->
  kde_density K true 1 None PNone = Ok f -> prob_between f (first g) (final g) total -> p * h < total ->
  forall x, first g <= x <= final g -> exists v q, kde_cdf K [g] false false [x] = Ok (Fin v) /\ prob_upto f x q /\ Rabs (v - q) <= 2 * (p * h) / total + (1 - total).
Proof.
  intros HB HG Hh Hp Hf HI Hs x Hx. pose proof (density_nonneg _ _ _ _ _ _ _ HB Hf) as Hnn.
  destruct (upto_exists (fun t => f (pt1 t)) 1 x (fun t => Hnn (pt1 t)) (density_total_1 _ _ _ _ _ _ HB Hf)) as [q Hq].
  assert (Hk : INR (S (length (walls None))) * p * h = p * h) by (cbn; ring).
  destruct (cdf_error data ws d M None K g h p f total HB HG Hh Hp Hf ltac:(discriminate) ltac:(discriminate) HI ltac:(rewrite Hk; exact Hs) x Hx) as (v & qx & Hv & Hqx & He). rewrite Hk in He.
  exists v, q. split; [exact Hv|]. split; [exact Hq|].
  pose proof (below_error (fun t => f (pt1 t)) (first g) (final g) x total q qx 1 (fun t => Hnn (pt1 t)) (density_total_1 _ _ _ _ _ _ HB Hf) Hx HI Hqx Hq) as Hbe.
  assert (Hle : qx <= total /\ 0 <= qx).
  { destruct (is_RInt_sub (fun t => f (pt1 t)) (first g) (final g) x (final g) total) as [z Hz]; [lra|lra|lra|exact HI|]. pose proof (rint_uniq _ _ _ _ _ HI (is_RInt_Chasles _ _ _ _ _ _ Hqx Hz)) as E. change (total = qx + z) in E.
    pose proof (is_RInt_const_r x (final g) 0) as Z1. rewrite Rmult_0_r in Z1. pose proof (is_RInt_const_r (first g) x 0) as Z2. rewrite Rmult_0_r in Z2.
    assert (0 <= z) by (apply (is_RInt_le (fun _ => 0) (fun t => f (pt1 t)) x (final g) 0 z); [lra|exact Z1|exact Hz|intros t _; apply Hnn]).
    assert (0 <= qx) by (apply (is_RInt_le (fun _ => 0) (fun t => f (pt1 t)) (first g) x 0 qx); [lra|exact Z2|exact Hqx|intros t _; apply Hnn]). lra. }
  assert (Ht1 : total <= 1) by lra.
  assert (Ht0 : 0 < total). { destruct Hp as [Z [HZ Ep]]. destruct (Rlt_le_dec 0 total) as [|Hc]; [assumption|]. exfalso. assert (total = 0) by lra. subst total.
    assert (0 <= p * h); [|lra]. apply Rmult_le_pos.
    - rewrite Ep. apply Rmult_le_pos; [apply spec_prof_nonneg'|]. assert (HZ0 := tint_nonneg _ _ (fun y => spec_prof_nonneg' d _) HZ). destruct (Req_dec Z 0) as [->|HZn]; [rewrite Rinv_0; lra|left; apply Rinv_0_lt_compat; lra].
    - destruct (grid_1 g HG) as [Hm He']. pose proof (Hh O ltac:(lia)). pose proof (He' 0%nat 1%nat ltac:(lia) ltac:(lia)). unfold vget in *. lra. }
  assert (Hq1 : - (1 - total) <= qx / total - q <= 1 - total).
  { assert (E : qx / total = qx + qx / total * (1 - total)) by (field; lra).
    assert (0 <= qx / total <= 1). { split; [apply Rmult_le_pos; [lra|left; apply Rinv_0_lt_compat, Ht0]|]. apply (Rmult_le_reg_r total); [exact Ht0|]. unfold Rdiv. rewrite Rmult_assoc, Rinv_l; lra. }
    assert (0 <= qx / total * (1 - total)) by (apply Rmult_le_pos; lra). assert (qx / total * (1 - total) <= 1 * (1 - total)) by (apply Rmult_le_compat_r; lra). lra. }
  replace (v - q) with ((v - qx / total) + (qx / total - q)) by ring. eapply Rle_trans; [apply Rabs_triang|]. apply Rplus_le_compat; [exact He|]. apply Rabs_le. exact Hq1.
Qed.
Theorem cdf_error_finite data ws d M K g h p f ppf x : built_kde 1 data ws d M None K -> finite d = true -> is_grid [g] -> spaced h g -> peak d (M O O) p ->
  kde_density K true 1 None PNone = Ok f -> kde_extrema K ppf None = Some (Ok [(first g, final g)]) -> p * h < 1 ->
  first g <= x <= final g -> exists v q, kde_cdf K [g] false false [x] = Ok (Fin v) /\ prob_upto f x q /\ Rabs (v - q) <= 2 * (p * h).
Proof.
  intros HB Hd HG Hh Hp Hf He Hs Hx. pose proof (density_total_1 _ _ _ _ _ _ HB Hf) as HT.
  assert (HI : prob_between f (first g) (final g) 1).
  { destruct (tint_ex_RInt _ _ (first g) (final g) HT) as [y Hy]; [lra|]. assert (E : y = 1); [|rewrite <- E; exact Hy]. apply (tint_supported (fun t => f (pt1 t)) 1 (first g) (final g) y); [lra|exact HT|exact Hy| |].
    - intros t Ht. apply (top_extrema_support 1 data ws d M K ppf _ true f (pt1 t) 0 HB Hd He Hf ltac:(lia)). left. exact Ht.
    - intros t Ht. apply (top_extrema_support 1 data ws d M K ppf _ true f (pt1 t) 0 HB Hd He Hf ltac:(lia)). right. exact Ht. }
  destruct (cdf_error_upto data ws d M K g h p f 1 HB HG Hh Hp Hf HI Hs x Hx) as (v & q & Hv & Hq & Hb). exists v, q. split; [exact Hv|]. split; [exact Hq|]. lra.
Qed.
Lemma peak_exists d m : 0 < m -> exists p, 0 < p /\ peak d m p.
Proof.
  intros Hm. pose proof (dist_evaluate_integral d 1 (fun _ => 0) (le_n 1)) as H. apply tintN_1 in H. pose proof (dist_norm_pos d 1 (le_n 1)) as HN.
  apply (tint_scal (dist_norm d 1)) in H. rewrite Rmult_1_r in H. pose proof (sqrt_lt_R0 m Hm) as Hq.
  assert (Hu : 0 < / sqrt m) by (apply Rinv_0_lt_compat, Hq). apply (tint_comp_lin _ _ (/ sqrt m) 0 Hu) in H.
  exists (spec_prof d 0 / (dist_norm d 1 / / sqrt m)). split.
  - apply Rdiv_lt_0_compat; [|apply Rdiv_lt_0_compat; assumption]. destruct d; cbn [spec_prof]; try (destruct (Rle_dec 0 1); lra). apply exp_pos.
  - eexists. split; [|reflexivity]. apply tint_ext with (2 := H). intros t. cbv beta. unfold dist_evaluate. rewrite prof_spec.
    assert (E : norm2 1 (upd (fun _ : nat => 0) 0 (/ sqrt m * t + 0)) = t * t / m).
    { unfold norm2, upd. cbn [rsum Nat.eqb]. rewrite <- (sqrt_sqrt m) at 3 by lra. field. lra. }
    rewrite E. field. lra.
Qed.
Theorem cdf_converges data ws d M refl K f a b total : built_kde 1 data ws d M refl K -> kde_density K true 1 None PNone = Ok f -> allowed refl a -> allowed refl b ->
  prob_between f a b total -> 0 < total -> forall eps, 0 < eps -> exists delta, 0 < delta /\
  forall g, is_grid [g] -> first g = a -> final g = b -> spaced delta g ->
  forall x, a <= x <= b -> exists v q, kde_cdf K [g] false false [x] = Ok (Fin v) /\ prob_between f a x q /\ Rabs (v - q / total) < eps.
Proof.
  intros HB Hf Ha Hb HI Ht eps Heps. destruct (built_inv _ _ _ _ _ _ _ HB) as (_ & _ & _ & _ & _ & _ & _ & _ & _ & _ & _ & Hpd).
  assert (HM : 0 < M O O) by (apply (posdef_diag_pos 1); [exact Hpd|lia]). destruct (peak_exists d (M O O) HM) as [p [Hp0 Hp]].
  set (k := INR (S (length (walls refl))) * p). assert (Hk : 0 < k) by (apply Rmult_lt_0_compat; [apply lt_0_INR; lia|exact Hp0]).
  set (r := Rmin (total / 2) (eps * total / 4)). assert (Hr : 0 < r) by (unfold r; apply Rmin_pos; [lra|]; assert (0 < eps * total) by (apply Rmult_lt_0_compat; assumption); lra).
  exists (r / k). split; [apply Rdiv_lt_0_compat; assumption|]. intros g HG E1 E2 Hsp x Hx. subst a b.
  assert (E : k * (r / k) = r) by (field; lra). assert (r <= total / 2) by apply Rmin_l. assert (r <= eps * total / 4) by apply Rmin_r.
  destruct (cdf_error data ws d M refl K g (r / k) p f total HB HG Hsp Hp Hf Ha Hb HI) with (x := x) as (v & q & H1 & H2 & H3); [fold k; lra|exact Hx|].
  exists v, q. split; [exact H1|]. split; [exact H2|]. fold k in H3. rewrite E in H3. eapply Rle_lt_trans; [exact H3|].
  apply (Rmult_lt_reg_r total); [exact Ht|]. unfold Rdiv. rewrite Rmult_assoc, Rinv_l by lra. assert (0 < eps * total) by (apply Rmult_lt_0_compat; assumption). lra.
Qed.
Lemma gaussian_low data ws M K f t : built_kde 1 data ws Gaussian M None K -> kde_density K true 1 None PNone = Ok f -> exists m, 0 < m /\ forall s, t <= s <= t + 1 -> m <= f (pt1 s).
Proof.
  intros HB Hf.
  destruct (built_inv _ _ _ _ _ _ _ HB) as (En & Ed & Hne & Er & Ew & Hl & Hn & Hp & Et & Ek & Hs & Hpd).
  assert (HM : 0 < M O O) by (apply (posdef_diag_pos 1); [exact Hpd|lia]).
  rewrite (density_as_kernel _ _ _ _ _ _ _ true None HB) in Hf. cbv beta iota zeta in Hf.
  destruct (kernel_density (mkKernel Gaussian 1 M) 1 1 data (Some ws) None None) as [f0|] eqn:E0; [|discriminate Hf]. cbn [bind] in Hf. injection Hf as <-.
  destruct (gaussian_1_pos Gaussian M data ws f0 t eq_refl HM Hl Hn) as [m [Hm Hlow]]; [|exact E0|].
  { apply NNPP. intros HN. assert (lsum ws <= 0); [|lra]. clear - HN Hn. induction ws as [|w ws IH]; [cbn; lra|]. change (lsum (w :: ws)) with (w + lsum ws).
    assert (w <= 0) by (apply Rnot_lt_le; intros HH; apply HN; exists w; split; [left; reflexivity|exact HH]). assert (lsum ws <= 0); [|lra]. apply IH; [intros v Hv; apply Hn; right; exact Hv|]. intros [v [Hv Hvp]]. apply HN. exists v. split; [right; exact Hv|exact Hvp]. }
  set (f := scaled true ws f0) in *. assert (Hfm : forall s, t <= s <= t + 1 -> m / lsum ws <= f (pt1 s)).
  { intros s Hss. unfold f. rewrite scaled_val by exact Hp. cbn [mass]. specialize (Hlow s Hss). unfold Rdiv. rewrite Rmult_comm, Rmult_1_l. apply Rmult_le_compat_l; [left; apply Rinv_0_lt_compat, Hp|exact Hlow]. }
  exists (m / lsum ws). split; [apply Rdiv_lt_0_compat; assumption|exact Hfm].
Qed.
Lemma gaussian_total data ws M K f a total : built_kde 1 data ws Gaussian M None K -> kde_density K true 1 None PNone = Ok f -> forall b, is_RInt (fun t => f (pt1 t)) a b total -> a + 1 <= b -> 0 < total.
Proof.
  intros HB Hf b HI Hab. pose proof (density_nonneg _ _ _ _ _ _ _ HB Hf) as Hnn. destruct (gaussian_low data ws M K f a HB Hf) as [m [Hm Hlow]].
  destruct (is_RInt_sub (fun t => f (pt1 t)) a b a (a + 1) total) as [y Hy]; [lra|lra|lra|exact HI|]. destruct (is_RInt_sub (fun t => f (pt1 t)) a b (a + 1) b total) as [z Hz]; [lra|lra|lra|exact HI|].
  pose proof (rint_uniq _ _ _ _ _ HI (is_RInt_Chasles _ _ _ _ _ _ Hy Hz)) as E. change (total = y + z) in E.
  pose proof (is_RInt_const_r a (a + 1) m) as C1. replace ((a + 1 - a) * m) with m in C1 by ring. pose proof (is_RInt_const_r (a + 1) b 0) as C2. rewrite Rmult_0_r in C2.
  assert (m <= y) by (apply (is_RInt_le (fun _ => m) (fun t => f (pt1 t)) a (a + 1)); [lra|exact C1|exact Hy|intros t Ht; apply Hlow; lra]).
  assert (0 <= z) by (apply (is_RInt_le (fun _ => 0) (fun t => f (pt1 t)) (a + 1) b); [lra|exact C2|exact Hz|intros t _; apply Hnn]). lra.
Qed.
Theorem cdf_tail data ws M K f g : built_kde 1 data ws Gaussian M None K -> kde_density K true 1 None PNone = Ok f -> is_grid [g] ->
  kde_cdf K [g] false false [final g] = Ok (Fin 1) /\ exists q, prob_upto f (final g) q /\ q < 1.
Proof.
  intros HB Hf HG. pose proof (density_nonneg _ _ _ _ _ _ _ HB Hf) as Hnn. pose proof (density_total_1 _ _ _ _ _ _ HB Hf) as HT. split.
  - destruct (cdf_gaussian 1 data ws M K [g] (le_n 1) HB HG eq_refl) as (c & Hc & _ & _ & _ & H1). rewrite Hc by reflexivity. cbn [map] in H1. unfold final. rewrite H1. reflexivity.
  - destruct (upto_exists (fun t => f (pt1 t)) 1 (final g) (fun t => Hnn (pt1 t)) HT) as [q Hq]. exists q. split; [exact Hq|].
    destruct (gaussian_low data ws M K f (final g) HB Hf) as [m [Hm Hfm]].
    destruct (tint_ex_RInt (fun t => f (pt1 t)) 1 (final g) (final g + 1) HT) as [z Hz]; [lra|].
    assert (Hzl : m <= z). { pose proof (is_RInt_const_r (final g) (final g + 1) (m)) as HC. replace ((final g + 1 - final g) * (m)) with (m) in HC by ring. apply (is_RInt_le (fun _ => m) (fun t => f (pt1 t)) (final g) (final g + 1)); [lra|exact HC|exact Hz|]. intros t Ht. apply Hfm. lra. }
    enough (q <= 1 - z) by lra. apply Rnot_lt_le. intros HH. apply upto_iff with (eps := q - (1 - z)) in Hq; [|lra]. destruct Hq as [N HN]. set (u := Rmin (final g) (- N - 1)). assert (Hu : u <= final g /\ u < - N) by (unfold u; split; [apply Rmin_l|]; pose proof (Rmin_r (final g) (- N - 1)); lra).
    destruct (HN u (proj2 Hu)) as [y [Hy1 Hy2]]. pose proof (is_RInt_Chasles _ _ _ _ _ _ Hy1 Hz) as HC. change (is_RInt (fun t => f (pt1 t)) u (final g + 1) (y + z)) in HC.
    assert (y + z <= 1) by (apply (tint_split (fun t => f (pt1 t)) 1 u (final g + 1)); [exact HT|lra|exact HC|intros t; apply Hnn]). apply Rabs_lt_between in Hy2. lra.
Qed.
(* ------------------------------------------------------------ grids *)
Lemma uniform_grid a b delta : a < b -> 0 < delta -> exists g, is_grid [g] /\ first g = a /\ final g = b /\ spaced delta g.
Proof.
  intros Hab Hd. destruct (nfloor_ex ((b - a) / delta)) as [n0 [_ Hn0]]; [left; apply Rdiv_lt_0_compat; lra|]. set (n := S n0). assert (Hn : (b - a) / delta < INR n) by (unfold n; rewrite S_INR; lra).
  assert (Hn1 : 0 < INR n) by (apply lt_0_INR; unfold n; lia). set (s := (b - a) / INR n). assert (Hs : 0 < s) by (apply Rdiv_lt_0_compat; lra).
  assert (Hsd : s <= delta). { left. unfold s. apply (Rmult_lt_reg_r (INR n)); [exact Hn1|]. unfold Rdiv. rewrite Rmult_assoc, Rinv_l, Rmult_1_r by lra. apply (Rmult_lt_compat_r delta) in Hn; [|exact Hd]. unfold Rdiv in Hn. rewrite Rmult_assoc, Rinv_l in Hn; lra. }
  set (g := map (fun i => a + INR i * s) (seq 0 (S n))). assert (Hl : length g = S n) by (unfold g; rewrite map_length, seq_length; reflexivity).
  assert (Hg : forall i, (i <= n)%nat -> nth i g 0 = a + INR i * s).
  { intros i Hi. unfold g. rewrite (nth_indep _ 0 (a + INR 0 * s)) by (rewrite map_length, seq_length; lia). rewrite (map_nth (fun i => a + INR i * s)), seq_nth by lia. reflexivity. }
  exists g. split; [|split; [|split]].
  - intros g' [<-|[]]. split; [rewrite Hl; unfold n; lia|]. intros i j Hij. rewrite Hl in Hij. rewrite !Hg by lia. assert (INR i < INR j) by (apply lt_INR; lia). apply Rplus_lt_compat_l, Rmult_lt_compat_r; assumption.
  - unfold first. rewrite Hg by lia. cbn [INR]. ring.
  - unfold final. rewrite Hl. replace (S n - 1)%nat with n by lia. rewrite Hg by lia. unfold s. field. lra.
  - intros i Hi. rewrite Hl in Hi. rewrite !Hg by lia. rewrite S_INR. lra.
Qed.
Theorem cdf_nan K g f x : is_grid [g] -> kde_density K true 1 None PNone = Ok f -> (forall i, (i < length g)%nat -> f (fun d => nth (nth d [i] 0%nat) (nth d [g] []) 0) = 0) ->
  kde_cdf K [g] false false [x] = Ok NaN.
Proof.
  intros HG Hf Hz. destruct (HG g (or_introl eq_refl)) as [Hl Hi].
  destruct (density_grid_pointwise K true None PNone [g] f Hf) as [a [Ha [Hs Hv]]]. change (map (@length R) [g]) with (lens [g]) in *.
  assert (Hne : forall x, In x [g] -> x <> [] /\ incr_list x).
  { intros y Hy. destruct (HG y Hy) as [H1 H2]. split; [intros ->; cbn in H1; lia|]. intros i j Hij Hj. apply H2. lia. }
  assert (Ha0 : forall idx, SpecNd.inb (shp a) idx -> at_ a idx = 0).
  { intros idx Hx. rewrite Hv by exact Hx. rewrite Hs in Hx. inversion Hx as [|i ? l ? H1 H2]; subst. inversion H2; subst. apply Hz, H1. }
  assert (Hap : forall idx, SpecNd.inb (shp a) idx -> 0 <= at_ a idx) by (intros idx Hx; rewrite Ha0 by exact Hx; lra).
  destruct (cumtrapz_value a [g] Hs (fun x Hx => proj1 (Hne x Hx))) as [c [Hc [Hcs [Hcv [Hc0 Hcl]]]]].
  destruct (cumtrapz_monotone a [g] Hs Hne Hap) as [c' [Hc' Hcm]]. assert (c' = c) by congruence. subst c'.
  assert (Hmono : mono_idx (shp c) (at_ c)) by (intros i j Hj Hij; rewrite Hcs in Hj; apply (Hcm i j Hj Hij)).
  assert (Hin1 : forall i, (i < length g)%nat -> SpecNd.inb (shp a) [i]) by (intros i Hil; rewrite Hs; constructor; [exact Hil|constructor]).
  assert (Hmax : nd_max c = 0).
  { rewrite nd_max_mono; [|rewrite Hcs, Hs; apply lens_pos, HG|exact Hmono]. rewrite Hcs, Hs. cbn [lens map].
    rewrite Hcv by (apply Hin1; lia). cbn [cut_edges trapezoids]. unfold trapezoid. rewrite <- (rsum_zero (length (firstn (S (length g - 1)) g) - 1)). apply rsum_ext. intros j Hj. rewrite firstn_length in Hj. rewrite !Ha0 by (apply Hin1; lia). unfold Rdiv. ring. }
  unfold kde_cdf. rewrite Ha. cbn [bind]. rewrite Hc. cbn [bind]. rewrite ascending_grid by exact HG. cbn [negb]. rewrite Hmax. destruct (Reqb_spec 0 0); [reflexivity|lra].
Qed.
Theorem coarse_refuted d : finite d = true -> exists K g, built_kde 1 [pt1 0] [1] d ident None K /\ is_grid [g] /\ first g < 0 < final g /\ forall x, kde_cdf K [g] false false [x] = Ok NaN.
Proof.
  intros Hd. destruct (unit_kde 1 [pt1 0] [1] d None) as [K [HK [HB _]]]; [discriminate|reflexivity| | |].
  - intros v [<-|[]]. lra.
  - exists 1. split; [left; reflexivity|lra].
  - exists K, [-2; 2]. assert (HG : is_grid [[-2; 2]]).
    { intros g [<-|[]]. split; [cbn; lia|]. intros i j Hij. cbn in Hij. destruct j as [|[|]]; destruct i as [|[|]]; cbn; try lia; lra. }
    split; [exact HB|]. split; [exact HG|]. split; [unfold first, final; cbn; lra|]. intros x.
    destruct (density_refl_exists_none 1 _ _ _ _ _ true HB (le_n 1)) as [f Hf]. apply (cdf_nan K [-2; 2] f x HG Hf). intros i Hi.
    apply (top_finite_support 1 [pt1 0] [1] d ident K true f _ 0 HB Hd ltac:(lia) Hf). intros q [<-|[]]. unfold ident, pt1. cbn [Nat.eqb]. rewrite sqrt_1, Rminus_0_r.
    cbn in Hi. destruct i as [|[|i]]; cbn; [rewrite Rabs_left; lra|rewrite Rabs_right; lra|lia].
Qed.

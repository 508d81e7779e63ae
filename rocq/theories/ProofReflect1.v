(** Reflecting boundaries of the density (C11, C12, C13). *)
From Coquelicot Require Import Coquelicot.
From Coq Require Import FunctionalExtensionality.
From Verif Require Import Base ModelLinAlg SpecLinAlg ProofLinAlg SpecIntegral ProofIntegral
  ProofWallis ProofGauss ModelKernels SpecKernels ProofKernels ModelKDE SpecKDE ProofDensity ProofAffine.
Open Scope R_scope.

Lemma is_RInt_sub (h : R -> R) (a b c d y : R) : a <= c -> c <= d -> d <= b -> is_RInt h a b y ->
  exists y', is_RInt h c d y'.
Proof.
  intros H1 H2 H3 H. assert (E : ex_RInt h a b) by (exists y; exact H).
  assert (E1 : ex_RInt h c b) by (apply (ex_RInt_Chasles_2 h a c b); [lra|exact E]).
  assert (E2 : ex_RInt h c d) by (apply (ex_RInt_Chasles_1 h c d b); [lra|exact E1]).
  exact E2.
Qed.

Lemma is_RInt_flip (h : R -> R) (p a b y : R) :
  is_RInt h (2 * p - b) (2 * p - a) y -> is_RInt (fun x => h (2 * p - x)) a b y.
Proof.
  intros H. apply is_RInt_swap in H.
  replace (2 * p - a) with (-1 * a + 2 * p) in H by ring.
  replace (2 * p - b) with (-1 * b + 2 * p) in H by ring.
  apply (is_RInt_comp_lin h (-1) (2 * p) a b) in H.
  apply (is_RInt_scal _ _ _ (-1)) in H.
  replace y with (scal (-1) (opp y)).
  - apply is_RInt_ext with (2 := H). intros x _. unfold scal; simpl; unfold mult; simpl.
    replace (2 * p - x) with (-1 * x + 2 * p) by ring. ring.
  - unfold scal, opp; simpl; unfold mult; simpl. ring.
Qed.

Lemma fold_lower h l p : is_tint h l ->
  is_tint (fun x => if Rltb x p then 0 else h x + h (2 * p - x)) l.
Proof.
  rewrite !tint_iff. intros H eps Heps. destruct (H eps Heps) as [M HM].
  exists (Rabs M + 2 * Rabs p + 1). intros a b Ha Hb.
  pose proof (Rle_abs M). pose proof (Rabs_pos M). pose proof (Rle_abs p). pose proof (Rle_abs (- p)) as Hp.
  rewrite Rabs_Ropp in Hp. pose proof (Rabs_pos p).
  destruct (HM (2 * p - b) b) as [y [Hy Hd]]; [lra|lra|].
  exists y. split; [|exact Hd].
  destruct (is_RInt_sub h (2 * p - b) b (2 * p - b) p y ltac:(lra) ltac:(lra) ltac:(lra) Hy) as [y1 G1].
  destruct (is_RInt_sub h (2 * p - b) b p b y ltac:(lra) ltac:(lra) ltac:(lra) Hy) as [y2 G2].
  pose proof (is_RInt_Chasles _ _ _ _ _ _ G1 G2) as G3.
  pose proof (is_RInt_eq h _ _ _ _ Hy G3) as E. unfold plus in E; simpl in E.
  assert (Hz : is_RInt (fun x => if Rltb x p then 0 else h x + h (2 * p - x)) a p 0).
  { apply is_RInt_ext with (fun _ => 0); [|apply is_RInt_zero].
    intros x Hx. rewrite Rmin_left, Rmax_right in Hx by lra.
    destruct (Rltb_spec x p); [reflexivity|lra]. }
  assert (Hr : is_RInt (fun x => if Rltb x p then 0 else h x + h (2 * p - x)) p b (y2 + y1)).
  { apply is_RInt_ext with (fun x => h x + h (2 * p - x)).
    - intros x Hx. rewrite Rmin_left, Rmax_right in Hx by lra. destruct (Rltb_spec x p); [lra|reflexivity].
    - apply (is_RInt_plus h (fun x => h (2 * p - x)) p b y2 y1 G2).
      apply is_RInt_flip. replace (2 * p - p) with p by ring. exact G1. }
  pose proof (is_RInt_Chasles _ _ _ _ _ _ Hz Hr) as HC. unfold plus in HC; simpl in HC.
  replace y with (0 + (y2 + y1)) by lra. exact HC.
Qed.

Lemma fold_upper h l p : is_tint h l ->
  is_tint (fun x => if Rltb p x then 0 else h x + h (2 * p - x)) l.
Proof.
  intros H. apply tint_opp in H. apply (fold_lower _ l (- p)) in H. apply tint_opp in H.
  apply tint_ext with (2 := H). intros x. cbv beta.
  assert (E : Rltb (- x) (- p) = Rltb p x).
  { destruct (Rltb_spec (- x) (- p)), (Rltb_spec p x); try reflexivity; lra. }
  rewrite E. destruct (Rltb p x); [reflexivity|]. f_equal; f_equal; ring.
Qed.

Lemma fold_both h lo hi y : lo < hi -> is_RInt h (2 * lo - hi) (2 * hi - lo) y ->
  is_tint (fun x => if orb (Rltb x lo) (Rltb hi x) then 0 else h x + h (2 * lo - x) + h (2 * hi - x)) y.
Proof.
  intros Hlt H.
  destruct (is_RInt_sub h (2 * lo - hi) (2 * hi - lo) (2 * lo - hi) lo y ltac:(lra) ltac:(lra) ltac:(lra) H) as [y1 H1].
  destruct (is_RInt_sub h (2 * lo - hi) (2 * hi - lo) lo hi y ltac:(lra) ltac:(lra) ltac:(lra) H) as [y2 H2].
  destruct (is_RInt_sub h (2 * lo - hi) (2 * hi - lo) hi (2 * hi - lo) y ltac:(lra) ltac:(lra) ltac:(lra) H) as [y3 H3].
  pose proof (is_RInt_Chasles _ _ _ _ _ _ (is_RInt_Chasles _ _ _ _ _ _ H1 H2) H3) as HC.
  pose proof (is_RInt_eq h _ _ _ _ H HC) as E. unfold plus in E; simpl in E.
  apply tint_compact with lo hi.
  - lra.
  - apply is_RInt_ext with (fun x => h x + h (2 * lo - x) + h (2 * hi - x)).
    + intros x Hx. rewrite Rmin_left, Rmax_right in Hx by lra.
      destruct (Rltb_spec x lo); [lra|]. destruct (Rltb_spec hi x); [lra|]. reflexivity.
    + replace y with (y2 + y1 + y3) by lra.
      apply (is_RInt_plus (fun x => h x + h (2 * lo - x)) (fun x => h (2 * hi - x)) lo hi (y2 + y1) y3).
      * apply (is_RInt_plus h (fun x => h (2 * lo - x)) lo hi y2 y1 H2).
        apply is_RInt_flip. replace (2 * lo - lo) with lo by ring. exact H1.
      * apply is_RInt_flip. replace (2 * hi - hi) with hi by ring. exact H3.
  - intros x Hx. destruct (Rltb_spec x lo); [reflexivity|lra].
  - intros x Hx. destruct (Rltb_spec hi x); [|lra]. rewrite orb_true_r. reflexivity.
Qed.

(* ---------------------------------------------------------------- 1-D reduction *)

Lemma white_dist2_1 W x d : white_dist2 1 W x d = (W O O * x O - W O O * d O) * (W O O * x O - W O O * d O).
Proof. unfold white_dist2. cbn [rsum]. cbv zeta. ring. Qed.

Lemma eval_numba_1 W k wd x y : x O = y O -> eval_numba 1 W k wd x = eval_numba 1 W k wd y.
Proof.
  intros E. unfold eval_numba. apply sumf_ext. intros dw _. rewrite !white_dist2_1, E. reflexivity.
Qed.

Lemma eval_numba_mirror W k wd x loc :
  eval_numba 1 W k (mirror 0 loc wd) x = eval_numba 1 W k wd (pt1 (2 * loc - x O)).
Proof.
  unfold eval_numba, mirror. rewrite sumf_map. apply sumf_ext. intros dw _. cbn [fst snd].
  rewrite !white_dist2_1. unfold mirror_pt, pt1. cbn [Nat.eqb]. f_equal. f_equal. ring.
Qed.

(** The reflected 1-D density in terms of the un-reflected one, [h]. *)
Definition fold1 (h : R -> R) (b : bnd) (t : R) : R :=
  if outside b t then 0
  else h t + opt_term (fun loc => h (2 * loc - t)) (fst b) + opt_term (fun loc => h (2 * loc - t)) (snd b).

Lemma density_refl_1 d M data w b f :
  kernel_density (mkKernel d 1 M) 1 1 data (Some w) (Some [Some b]) None = Ok f ->
  exists g, kernel_density (mkKernel d 1 M) 1 1 data (Some w) None None = Ok g
    /\ (forall x, g x = g (pt1 (x O)))
    /\ forall x, f x = fold1 (fun t => g (pt1 t)) b (x O).
Proof.
  intros H. destruct (kernel_density_inv _ _ _ _ _ _ _ _ H)
    as [n' [M' [N [W [w' [[-> ->] [_ [HN [HW [-> [Hl ->]]]]]]]]]]]. cbn [k_ndim k_matrix k_dist] in *.
  eexists. split.
  { unfold kernel_density. cbn [k_ndim k_matrix k_dist bind fst snd Nat.eqb negb].
    rewrite Hl, Nat.eqb_refl. cbn [bind]. rewrite HN, HW. reflexivity. }
  split.
  - intros x. cbv beta. rewrite (eval_numba_1 W (prof d) (combine data w) x (pt1 (x O)) eq_refl). reflexivity.
  - intros x. unfold fold1. cbn [reflect_loop].
    destruct (outside b (x O)); [unfold Rdiv; ring|].
    assert (E : forall o Z, opt_term (fun loc => eval_numba 1 W (prof d) (mirror 0 loc (combine data w)) x) o / Z
        = opt_term (fun loc => eval_numba 1 W (prof d) (combine data w) (pt1 (2 * loc - x O)) / Z) o).
    { intros [loc|] Z; cbn [opt_term]; [rewrite eval_numba_mirror; reflexivity|unfold Rdiv; ring]. }
    rewrite <- !E.
    rewrite (eval_numba_1 W (prof d) _ (pt1 (x O)) x) by reflexivity. unfold Rdiv. ring.
Qed.

Lemma tintN_1 f base l : is_tintN 1 f base l <-> is_tint (fun t => f (upd base 0 t)) l.
Proof.
  split.
  - intros [g [H1 H2]]. apply tint_ext with (2 := H2). intros x. symmetry. apply H1.
  - intros H. exists (fun t => f (upd base 0 t)). split; [|exact H]. intros t. reflexivity.
Qed.

Lemma posdef_1 M : 0 < M O O -> symmetric 1 M /\ posdef 1 M.
Proof.
  intros H. split.
  - intros i j Hi Hj. replace i with O by lia. replace j with O by lia. reflexivity.
  - intros x [i [Hi Hx]]. replace i with O in Hx by lia. unfold quad. cbn [rsum]. 
    assert (0 < x O * x O) by nra. nra.
Qed.

(** Existence of the reflected density. *)
Lemma density_refl_ex d n M data w (refl : reflspec) : symmetric n M -> posdef n M -> length w = length data ->
  length refl = n ->
  exists f, kernel_density (mkKernel d n M) n n data (Some w) (Some refl) None = Ok f.
Proof.
  intros Hs Hp Hw Hr. destruct (whiten_posdef n M Hs Hp) as [N [W [HN [HW _]]]].
  unfold kernel_density. cbn [k_ndim k_matrix k_dist bind fst snd]. rewrite Nat.eqb_refl. cbn [negb].
  rewrite Hw, Nat.eqb_refl. cbn [bind]. rewrite HN, HW, Hr, Nat.eqb_refl. cbn [negb]. eauto.
Qed.

Lemma density_1_tint d M data w g : 0 < M O O -> length w = length data ->
  kernel_density (mkKernel d 1 M) 1 1 data (Some w) None None = Ok g ->
  is_tint (fun t => g (pt1 t)) (lsum w).
Proof.
  intros HM Hw Hg. destruct (posdef_1 M HM) as [Hs Hp].
  destruct (density_integral d 1 M data w (pt1 0) ltac:(lia) Hs Hp Hw) as [g' [Hg' Hi]].
  rewrite Hg in Hg'. injection Hg' as <-. apply tintN_1 in Hi.
  apply tint_ext with (2 := Hi). intros t.
  destruct (kernel_density_inv _ _ _ _ _ _ _ _ Hg)
    as [n' [M' [N [W [w' [[-> ->] [_ [HN [HW [-> [Hl ->]]]]]]]]]]].
  cbn [k_ndim k_matrix k_dist].
  rewrite (eval_numba_1 W (prof d) (combine data w) (pt1 t) (upd (pt1 0) 0 t) eq_refl). reflexivity.
Qed.

(** C11, one boundary. *)
Lemma reflect_conserves_one d M data w b base : 0 < M O O -> length w = length data ->
  (fst b = None \/ snd b = None) ->
  exists f, kernel_density (mkKernel d 1 M) 1 1 data (Some w) (Some [Some b]) None = Ok f
    /\ is_tintN 1 f base (lsum w).
Proof.
  intros HM Hw Hb. destruct (posdef_1 M HM) as [Hs Hp].
  destruct (density_refl_ex d 1 M data w [Some b] Hs Hp Hw eq_refl) as [f Hf].
  exists f. split; [exact Hf|]. destruct (density_refl_1 d M data w b f Hf) as [g [Hg [_ Hfg]]].
  pose proof (density_1_tint d M data w g HM Hw Hg) as Hi.
  apply tintN_1.
  assert (E : forall t, fold1 (fun t => g (pt1 t)) b t = f (upd base 0 t)).
  { intros t. rewrite Hfg. reflexivity. }
  destruct b as [[lo|] [hi|]]; cbn [fst snd] in Hb; try (destruct Hb; discriminate).
  - apply tint_ext with (2 := fold_lower _ _ lo Hi). intros t. rewrite <- E. unfold fold1, outside, opt_term.
    cbn [fst snd]. rewrite orb_false_r. destruct (Rltb t lo); ring.
  - apply tint_ext with (2 := fold_upper _ _ hi Hi). intros t. rewrite <- E. unfold fold1, outside, opt_term.
    cbn [fst snd]. rewrite orb_false_l. destruct (Rltb hi t); ring.
  - apply tint_ext with (2 := Hi). intros t. rewrite <- E. unfold fold1, outside, opt_term.
    cbn [fst snd orb]. ring.
Qed.

Lemma tint_ex_RInt f l a b : is_tint f l -> a <= b -> exists y, is_RInt f a b y.
Proof.
  intros H Hab. rewrite tint_iff in H. destruct (H 1 Rlt_0_1) as [M HM].
  set (B := Rabs M + Rabs a + Rabs b + 1).
  pose proof (Rle_abs M). pose proof (Rle_abs a). pose proof (Rle_abs b). pose proof (Rle_abs (- a)) as Ha.
  rewrite Rabs_Ropp in Ha. pose proof (Rabs_pos M). pose proof (Rabs_pos a). pose proof (Rabs_pos b).
  destruct (HM (- B) B) as [y [Hy _]]; [unfold B; lra|unfold B; lra|].
  apply (is_RInt_sub f (- B) B a b y); [unfold B; lra|exact Hab|unfold B; lra|exact Hy].
Qed.

(** Two boundaries: what is kept is the mass between the mirrored far ends. *)
Lemma reflect_two_integral d M data w lo hi base g : 0 < M O O -> length w = length data -> lo < hi ->
  kernel_density (mkKernel d 1 M) 1 1 data (Some w) None None = Ok g ->
  exists f y, kernel_density (mkKernel d 1 M) 1 1 data (Some w) (Some [Some (Some lo, Some hi)]) None = Ok f
    /\ is_RInt (fun t => g (pt1 t)) (2 * lo - hi) (2 * hi - lo) y
    /\ is_tintN 1 f base y.
Proof.
  intros HM Hw Hlt Hg. destruct (posdef_1 M HM) as [Hs Hp].
  destruct (density_refl_ex d 1 M data w [Some (Some lo, Some hi)] Hs Hp Hw eq_refl) as [f Hf].
  pose proof (density_1_tint d M data w g HM Hw Hg) as Hi.
  destruct (tint_ex_RInt _ _ (2 * lo - hi) (2 * hi - lo) Hi) as [y Hy]; [lra|].
  exists f, y. split; [exact Hf|split; [exact Hy|]].
  destruct (density_refl_1 d M data w _ f Hf) as [g' [Hg' [_ Hfg]]].
  rewrite Hg in Hg'. injection Hg' as <-.
  apply tintN_1. apply tint_ext with (2 := fold_both _ lo hi y Hlt Hy). intros t.
  rewrite Hfg. unfold fold1, outside, opt_term. cbn [fst snd].
  change (upd base 0 t O) with t. reflexivity.
Qed.

Lemma density_1_zero_far d M data w g t : 0 < M O O -> finite d = true ->
  kernel_density (mkKernel d 1 M) 1 1 data (Some w) None None = Ok g ->
  (forall p, In p data -> sqrt (M O O) < Rabs (t - p O)) -> g (pt1 t) = 0.
Proof.
  intros HM Hfin Hg Hfar. destruct (posdef_1 M HM) as [Hs _].
  apply (kernel_density_support d 1 M data w g (pt1 t) O Hs Hfin ltac:(lia) Hg).
  intros p Hp. apply Hfar, Hp.
Qed.

Lemma tint_supported f l a b y : a <= b -> is_tint f l -> is_RInt f a b y ->
  (forall x, x < a -> f x = 0) -> (forall x, b < x -> f x = 0) -> y = l.
Proof.
  intros Hab Hl Hy H1 H2. apply (tint_unique f); [|exact Hl]. apply tint_compact with a b; assumption.
Qed.

Lemma reflect_conserves_two d M data w lo hi base : 0 < M O O -> length w = length data ->
  finite d = true -> lo < hi -> sqrt (M O O) <= hi - lo ->
  (forall p, In p data -> lo <= p O <= hi) ->
  exists f, kernel_density (mkKernel d 1 M) 1 1 data (Some w) (Some [Some (Some lo, Some hi)]) None = Ok f
    /\ is_tintN 1 f base (lsum w).
Proof.
  intros HM Hw Hfin Hlt Hh Hin. destruct (posdef_1 M HM) as [Hs Hp].
  destruct (density_integral d 1 M data w base ltac:(lia) Hs Hp Hw) as [g [Hg _]].
  destruct (reflect_two_integral d M data w lo hi base g HM Hw Hlt Hg) as [f [y [Hf [Hy Hi]]]].
  exists f. split; [exact Hf|]. pose proof (density_1_tint d M data w g HM Hw Hg) as Ht.
  replace (lsum w) with y; [exact Hi|].
  apply (tint_supported _ _ (2 * lo - hi) (2 * hi - lo) y ltac:(lra) Ht Hy).
  - intros t Ht1. apply (density_1_zero_far d M data w g t HM Hfin Hg). intros p Hp1.
    specialize (Hin p Hp1). rewrite Rabs_left; lra.
  - intros t Ht1. apply (density_1_zero_far d M data w g t HM Hfin Hg). intros p Hp1.
    specialize (Hin p Hp1). rewrite Rabs_right; lra.
Qed.

(** Gaussian with two boundaries: strictly less than the total. *)
Lemma tint_split f l a b y : is_tint f l -> a <= b -> is_RInt f a b y -> (forall x, 0 <= f x) -> y <= l.
Proof.
  intros Hf Hab Hy Hnn. destruct (Rle_lt_dec y l) as [|Hlt]; [assumption|exfalso].
  rewrite tint_iff in Hf. destruct (Hf (y - l)) as [M HM]; [lra|].
  set (B := Rabs M + Rabs a + Rabs b + 1).
  pose proof (Rle_abs M). pose proof (Rle_abs a). pose proof (Rle_abs b). pose proof (Rle_abs (- a)) as Ha.
  rewrite Rabs_Ropp in Ha. pose proof (Rabs_pos M). pose proof (Rabs_pos a). pose proof (Rabs_pos b).
  destruct (HM (- B) B) as [z [Hz Hd]]; [unfold B; lra|unfold B; lra|].
  destruct (is_RInt_sub f (- B) B (- B) a z) as [y1 G1]; try (unfold B; lra); [exact Hz|].
  destruct (is_RInt_sub f (- B) B b B z) as [y3 G3]; try (unfold B; lra); [exact Hz|].
  pose proof (is_RInt_Chasles _ _ _ _ _ _ (is_RInt_Chasles _ _ _ _ _ _ G1 Hy) G3) as HC.
  pose proof (is_RInt_eq f _ _ _ _ Hz HC) as E. unfold plus in E; simpl in E.
  assert (P1 : 0 <= y1).
  { apply (is_RInt_le (fun _ => 0) f (- B) a); [unfold B; lra|apply is_RInt_zero|exact G1|intros; apply Hnn]. }
  assert (P3 : 0 <= y3).
  { apply (is_RInt_le (fun _ => 0) f b B); [unfold B; lra|apply is_RInt_zero|exact G3|intros; apply Hnn]. }
  apply Rabs_def2 in Hd. lra.
Qed.

Lemma is_RInt_const_r a b c : is_RInt (fun _ : R => c) a b ((b - a) * c).
Proof. exact (is_RInt_const a b (c : R)). Qed.

Lemma gaussian_1_pos d M data w g t : d = Gaussian -> 0 < M O O -> length w = length data ->
  (forall v, In v w -> 0 <= v) -> (exists v, In v w /\ 0 < v) ->
  kernel_density (mkKernel d 1 M) 1 1 data (Some w) None None = Ok g ->
  exists m, 0 < m /\ forall s, t <= s <= t + 1 -> m <= g (pt1 s).
Proof.
  intros -> HM Hw Hnn [v [Hv Hvp]] Hg. destruct (posdef_1 M HM) as [Hs Hp].
  destruct (kernel_density_inv _ _ _ _ _ _ _ _ Hg)
    as [n' [M' [N [W [w' [[-> ->] [_ [HN [HW [-> [Hl ->]]]]]]]]]]]. cbn [k_ndim k_matrix k_dist] in *.
  pose proof (sqrt_mdet_pos 1 M Hs Hp) as Hsq. pose proof (dist_norm_pos Gaussian 1 ltac:(lia)) as Hdn.
  set (Z := sqrt (Rabs (mdet 1 M)) * dist_norm Gaussian 1).
  assert (HZ : 0 < Z) by (apply Rmult_lt_0_compat; assumption).
  assert (Hex : exists p, In (p, v) (combine data w)).
  { clear -Hv Hw. revert w Hw Hv. induction data as [|a data IH]; intros [|b w] H1 H2; try contradiction; try discriminate.
    destruct H2 as [->|H2]; [exists a; left; reflexivity|].
    destruct (IH w ltac:(simpl in H1; congruence) H2) as [p Hp]. exists p; right; exact Hp. }
  destruct Hex as [p Hp1].
  set (K := Rabs (W O O) * (Rabs t + 1 + Rabs (p O))).
  exists (exp (- (K * K) / 2) * v / Z).
  split.
  { apply Rdiv_lt_0_compat; [|exact HZ]. apply Rmult_lt_0_compat; [apply exp_pos|exact Hvp]. }
  intros s Hts. apply Rmult_le_compat_r; [left; apply Rinv_0_lt_compat, HZ|].
  unfold eval_numba.
  apply Rle_trans with (prof Gaussian (white_dist2 1 W (pt1 s) p) * v).
  - apply Rmult_le_compat_r; [lra|]. cbn [prof]. rewrite white_dist2_1. unfold pt1.
    assert (Hle : (W O O * s - W O O * p O) * (W O O * s - W O O * p O) <= K * K).
    { replace (W O O * s - W O O * p O) with (W O O * (s - p O)) by ring.
      assert (Ha : Rabs (W O O * (s - p O)) <= K).
      { rewrite Rabs_mult. unfold K. apply Rmult_le_compat_l; [apply Rabs_pos|].
        pose proof (Rle_abs t). pose proof (Rle_abs (- t)) as H2. rewrite Rabs_Ropp in H2.
        pose proof (Rle_abs (p O)). pose proof (Rle_abs (- p O)) as H3. rewrite Rabs_Ropp in H3.
        apply Rabs_le. lra. }
      pose proof (Rabs_pos (W O O * (s - p O))).
      replace (W O O * (s - p O) * (W O O * (s - p O)))
        with (Rabs (W O O * (s - p O)) * Rabs (W O O * (s - p O))).
      - nra.
      - rewrite <- Rabs_mult. apply Rabs_pos_eq. apply Rle_0_sqr. }
    destruct (Req_dec (K * K) ((W O O * s - W O O * p O) * (W O O * s - W O O * p O))) as [E|E].
    + rewrite E. lra.
    + left. apply exp_increasing. lra.
  - apply (sumf_ge_term (fun dw => prof Gaussian (white_dist2 1 W (pt1 s) (fst dw)) * snd dw) _ (p, v));
      [|exact Hp1].
    intros [a u] Hin. apply in_combine_r in Hin. apply Rmult_le_pos; [apply prof_nonneg|apply Hnn, Hin].
Qed.

Lemma reflect_two_gaussian_loses M data w lo hi base : 0 < M O O -> length w = length data -> lo < hi ->
  (forall v, In v w -> 0 <= v) -> (exists v, In v w /\ 0 < v) ->
  exists f y, kernel_density (mkKernel Gaussian 1 M) 1 1 data (Some w) (Some [Some (Some lo, Some hi)]) None = Ok f
    /\ is_tintN 1 f base y /\ y < lsum w.
Proof.
  intros HM Hw Hlt Hnn Hpos. destruct (posdef_1 M HM) as [Hs Hp].
  destruct (density_integral Gaussian 1 M data w base ltac:(lia) Hs Hp Hw) as [g [Hg _]].
  destruct (reflect_two_integral Gaussian M data w lo hi base g HM Hw Hlt Hg) as [f [y [Hf [Hy Hi]]]].
  exists f, y. split; [exact Hf|split; [exact Hi|]].
  pose proof (density_1_tint Gaussian M data w g HM Hw Hg) as Ht.
  destruct (gaussian_1_pos Gaussian M data w g (2 * hi - lo) eq_refl HM Hw Hnn Hpos Hg) as [m [Hm Hge]].
  assert (Hgn : forall x, 0 <= g (pt1 x)).
  { intros x. apply (kernel_density_nonneg _ _ _ _ _ _ _ _ (pt1 x) Hg Hnn). }
  destruct (tint_ex_RInt _ _ (2 * hi - lo) (2 * hi - lo + 1) Ht) as [z Hz]; [lra|].
  pose proof (is_RInt_Chasles _ _ _ _ _ _ Hy Hz) as HC. unfold plus in HC; simpl in HC.
  pose proof (tint_split _ _ (2 * lo - hi) (2 * hi - lo + 1) (y + z) Ht ltac:(lra) HC Hgn) as Hle.
  assert (Hzm : (2 * hi - lo + 1 - (2 * hi - lo)) * m <= z).
  { apply (is_RInt_le (fun _ => m) (fun t => g (pt1 t)) (2 * hi - lo) (2 * hi - lo + 1));
      [lra|apply is_RInt_const_r|exact Hz|]. intros x Hx. apply Hge. lra. }
  lra.
Qed.

(* ---------------------------------------------------------------- C12 *)
Lemma reflect_loop_app ev wd x r1 r2 : forall ii acc,
  reflect_loop ev wd x ii (r1 ++ r2) acc = reflect_loop ev wd x (ii + length r1) r2 (reflect_loop ev wd x ii r1 acc).
Proof.
  induction r1 as [|[b|] r1 IH]; intros ii acc; cbn [app reflect_loop length].
  - rewrite Nat.add_0_r. reflexivity.
  - rewrite IH. f_equal. lia.
  - rewrite IH. f_equal. lia.
Qed.
Lemma reflect_loop_none ev wd x m : forall ii acc,
  reflect_loop ev wd x ii (repeat None m) acc = acc.
Proof. induction m; intros; cbn [repeat reflect_loop]; auto. Qed.

(** Zero outside the last reflected dimension. *)
Lemma reflect_outside_last K pdim ddim data ow r b m params f x :
  kernel_density K pdim ddim data ow (Some (r ++ Some b :: repeat None m)) params = Ok f ->
  outside b (x (length r)) = true -> f x = 0.
Proof.
  intros H Ho. destruct (kernel_density_inv _ _ _ _ _ _ _ _ H)
    as [n [M [N [W [w' [_ [_ [_ [_ [_ [_ ->]]]]]]]]]]].
  rewrite reflect_loop_app. cbn [Nat.add]. cbn [reflect_loop]. rewrite Ho.
  rewrite reflect_loop_none. unfold Rdiv. ring.
Qed.

(* ---------------------------------------------------------------- C13 *)
Lemma fold1_far h b t : outside b t = false ->
  (forall loc, fst b = Some loc -> h (2 * loc - t) = 0) ->
  (forall loc, snd b = Some loc -> h (2 * loc - t) = 0) -> fold1 h b t = h t.
Proof.
  intros Ho H1 H2. unfold fold1. rewrite Ho.
  destruct b as [[lo|] [hi|]]; cbn [fst snd opt_term] in *; rewrite ?(H1 _ eq_refl), ?(H2 _ eq_refl); ring.
Qed.

Lemma reflect_far_unchanged d M data w b f g t :
  0 < M O O -> finite d = true ->
  kernel_density (mkKernel d 1 M) 1 1 data (Some w) (Some [Some b]) None = Ok f ->
  kernel_density (mkKernel d 1 M) 1 1 data (Some w) None None = Ok g ->
  (forall p, In p data -> outside b (p O) = false) ->
  (forall lo, fst b = Some lo -> lo + sqrt (M O O) < t) ->
  (forall hi, snd b = Some hi -> t < hi - sqrt (M O O)) ->
  f (pt1 t) = g (pt1 t).
Proof.
  intros HM Hfin Hf Hg Hin Hlo Hhi.
  destruct (density_refl_1 d M data w b f Hf) as [g' [Hg' [_ Hfg]]].
  rewrite Hg in Hg'. injection Hg' as <-. rewrite Hfg. change (pt1 t O) with t.
  pose proof (sqrt_lt_R0 _ HM) as Hr.
  apply fold1_far.
  - destruct b as [[lo|] [hi|]]; unfold outside; cbn [fst snd] in *;
      try specialize (Hlo _ eq_refl); try specialize (Hhi _ eq_refl);
      repeat match goal with |- context [Rltb ?a ?c] => destruct (Rltb_spec a c); [lra|] end; reflexivity.
  - intros lo Elo. apply (density_1_zero_far d M data w g _ HM Hfin Hg). intros p Hp1.
    specialize (Hin p Hp1). specialize (Hlo lo Elo).
    assert (lo <= p O).
    { unfold outside in Hin. rewrite Elo in Hin. apply orb_false_iff in Hin. destruct Hin as [Hin _].
      apply Rltb_false in Hin. exact Hin. }
    rewrite Rabs_left; lra.
  - intros hi Ehi. apply (density_1_zero_far d M data w g _ HM Hfin Hg). intros p Hp1.
    specialize (Hin p Hp1). specialize (Hhi hi Ehi).
    assert (p O <= hi).
    { unfold outside in Hin. rewrite Ehi in Hin. apply orb_false_iff in Hin. destruct Hin as [_ Hin].
      apply Rltb_false in Hin. exact Hin. }
    rewrite Rabs_right; lra.
Qed.

Lemma reflect_boundary_doubles d M data w f g t (low : bool) :
  kernel_density (mkKernel d 1 M) 1 1 data (Some w)
    (Some [Some (if low then (Some t, None) else (None, Some t))]) None = Ok f ->
  kernel_density (mkKernel d 1 M) 1 1 data (Some w) None None = Ok g ->
  f (pt1 t) = 2 * g (pt1 t).
Proof.
  intros Hf Hg. destruct (density_refl_1 d M data w _ f Hf) as [g' [Hg' [_ Hfg]]].
  rewrite Hg in Hg'. injection Hg' as <-. rewrite Hfg. change (pt1 t O) with t. unfold fold1, outside.
  assert (E : Rltb t t = false) by (apply Rltb_false; lra).
  destruct low; cbn [fst snd opt_term]; rewrite E; cbn [orb];
    replace (2 * t - t) with t by ring; ring.
Qed.

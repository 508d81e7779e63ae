From Coq Require Import Permutation FunctionalExtensionality.
From Coquelicot Require Import Coquelicot.
From Verif Require Import Base ModelLinAlg SpecLinAlg ProofLinAlg SpecIntegral ProofIntegral
  ProofWallis ProofGauss ModelKernels SpecKernels ProofKernels ModelKDE SpecKDE.
Open Scope R_scope.

(* ---------------------------------------------------------------- Cauchy-Schwarz *)
Lemma rsum_CS n (a b : nat -> R) :
  rsum n (fun k => a k * b k) * rsum n (fun k => a k * b k)
  <= rsum n (fun k => a k * a k) * rsum n (fun k => b k * b k).
Proof.
  set (A := rsum n (fun k => a k * a k)). set (B := rsum n (fun k => b k * b k)).
  set (C := rsum n (fun k => a k * b k)).
  assert (HA : 0 <= A) by (apply rsum_nonneg; intros; apply Rle_0_sqr).
  assert (HB : 0 <= B) by (apply rsum_nonneg; intros; apply Rle_0_sqr).
  assert (Hq : forall s t, 0 <= s * s * A + 2 * s * t * C + t * t * B).
  { intros s t. unfold A, B, C. rewrite <- !rsum_scal, <- !rsum_plus.
    apply rsum_nonneg. intros k _.
    replace (s * s * (a k * a k) + 2 * s * t * (a k * b k) + t * t * (b k * b k))
      with ((s * a k + t * b k) * (s * a k + t * b k)) by ring.
    apply Rle_0_sqr. }
  pose proof (Hq B (- C)) as H1. pose proof (Hq (- C) A) as H2.
  destruct (Req_EM_T B 0) as [E|E].
  - rewrite E in *. destruct (Req_EM_T A 0) as [E2|E2].
    + rewrite E2 in *. pose proof (Hq 1 1). pose proof (Hq 1 (-1)). nra.
    + nra.
  - assert (0 < B) by lra. nra.
Qed.

(** delta_i^2 <= M_ii * delta^T M^-1 delta *)
Lemma mahal_coord n M N W x i :
  symmetric n M -> symmetric n N -> is_inverse n M N -> chol n N = Some W -> (i < n)%nat ->
  x i * x i <= M i i * quad n N x.
Proof.
  intros HsM HsN Hinv HW Hi.
  set (m := fun k => M k i).
  assert (Hbil : forall y z, rsum n (fun k => mvec n W y k * mvec n W z k)
                  = rsum n (fun a => y a * mvec n N z a)).
  { intros y z. unfold mvec.
    transitivity (rsum n (fun k => rsum n (fun a => rsum n (fun b => y a * (W k a * W k b) * z b)))).
    - apply rsum_ext; intros k Hk. rewrite <- rsum_scal_r. apply rsum_ext; intros a Ha.
      rewrite <- rsum_scal. apply rsum_ext; intros b Hb. ring.
    - rewrite rsum_swap. apply rsum_ext; intros a Ha. rewrite rsum_swap.
      rewrite <- rsum_scal. apply rsum_ext; intros b Hb.
      rewrite <- (chol_full n N W a b HW HsN Ha Hb).
      rewrite rsum_scal_r, rsum_scal. ring. }
  assert (Hm : forall z, rsum n (fun a => m a * mvec n N z a) = z i \/ True) by (intros; right; exact I).
  clear Hm.
  assert (Hmz : forall z, rsum n (fun a => m a * mvec n N z a) = z i).
  { intros z. unfold m, mvec.
    transitivity (rsum n (fun b => rsum n (fun a => M i a * N a b) * z b)).
    - transitivity (rsum n (fun a => rsum n (fun b => M i a * N a b * z b))).
      + apply rsum_ext; intros a Ha. rewrite <- rsum_scal. rewrite (HsM a i) by lia.
        apply rsum_ext; intros; ring.
      + rewrite rsum_swap. apply rsum_ext; intros b Hb. rewrite rsum_scal_r. reflexivity.
    - rewrite (rsum_ext n _ (fun b => ident i b * z b)).
      + apply (rsum_ident_l n z i Hi).
      + intros b Hb. destruct (Hinv i b Hi Hb) as [E _]. rewrite E. reflexivity. }
  pose proof (rsum_CS n (mvec n W m) (mvec n W x)) as H.
  rewrite !Hbil in H. rewrite !Hmz in H.
  assert (Hq : rsum n (fun a => x a * mvec n N x a) = quad n N x).
  { unfold quad, mvec. apply rsum_ext; intros a Ha. rewrite <- rsum_scal. apply rsum_ext; intros; ring. }
  rewrite Hq in H. exact H.
Qed.

(* ---------------------------------------------------------------- generic facts *)
Lemma eval_numba_nonneg n W d wd x : (forall dw, In dw wd -> 0 <= snd dw) ->
  0 <= eval_numba n W (prof d) wd x.
Proof.
  intros H. unfold eval_numba. apply sumf_nonneg. intros dw Hin.
  apply Rmult_le_pos; [apply prof_nonneg|apply H, Hin].
Qed.

Lemma mirror_weights ii loc wd dw : In dw (mirror ii loc wd) -> exists dw', In dw' wd /\ snd dw' = snd dw.
Proof.
  unfold mirror. rewrite in_map_iff. intros [dw' [<- H]]. exists dw'. split; [exact H|reflexivity].
Qed.

Lemma reflect_loop_nonneg ev wd x refl :
  (forall wd', (forall dw, In dw wd' -> 0 <= snd dw) -> 0 <= ev wd') ->
  (forall dw, In dw wd -> 0 <= snd dw) ->
  forall ii acc, 0 <= acc -> 0 <= reflect_loop ev wd x ii refl acc.
Proof.
  intros Hev Hwd. induction refl as [|[b|] refl IH]; intros ii acc Hacc; simpl; auto.
  assert (Hm : forall loc, 0 <= ev (mirror ii loc wd)).
  { intros loc. apply Hev. intros dw Hin. destruct (mirror_weights _ _ _ _ Hin) as [dw' [H1 <-]]. auto. }
  assert (Ho : forall o, 0 <= opt_term (fun loc => ev (mirror ii loc wd)) o).
  { intros [loc|]; simpl; [apply Hm|lra]. }
  apply IH. destruct (outside b (x ii)); [lra|].
  pose proof (Ho (fst b)). pose proof (Ho (snd b)). lra.
Qed.

(** Shape of every successful kernel_density call. *)
Lemma kernel_density_inv K pdim ddim data ow refl params f :
  kernel_density K pdim ddim data ow refl params = Ok f ->
  exists n M N W w,
    match params with None => n = k_ndim K /\ M = k_matrix K
                    | Some ps => n = length ps /\ M = submat ps (k_matrix K) /\ pdim = length ps
                                 /\ forallb (fun p => Nat.ltb p (k_ndim K)) ps = true end
    /\ pdim = ddim /\ minv n M = Some N /\ chol n N = Some W
    /\ w = match ow with Some w => w | None => ones data end
    /\ length w = length data
    /\ f = match refl with
           | None => fun x => eval_numba n W (prof (k_dist K)) (combine data w) x
                       / (sqrt (Rabs (mdet n M)) * dist_norm (k_dist K) pdim)
           | Some r => fun x => reflect_loop (fun wd => eval_numba n W (prof (k_dist K)) wd x)
                       (combine data w) x 0 r (eval_numba n W (prof (k_dist K)) (combine data w) x)
                       / (sqrt (Rabs (mdet n M)) * dist_norm (k_dist K) pdim)
           end.
Proof.
  unfold kernel_density. intros H.
  destruct params as [ps|].
  - destruct (forallb (fun p => Nat.ltb p (k_ndim K)) ps) eqn:Efb; [|discriminate H].
    destruct (Nat.eqb_spec pdim (length ps)) as [Epd|]; [|discriminate H]. cbn [bind fst snd] in H.
    destruct (Nat.eqb_spec pdim ddim) as [Edd|]; [|discriminate H]. cbn [negb] in H.
    exists (length ps), (submat ps (k_matrix K)).
    destruct ow as [w|].
    + destruct (Nat.eqb_spec (length w) (length data)) as [Ew|]; [|discriminate H]. cbn [bind] in H.
      destruct (minv _ _) as [N|] eqn:EN; [|discriminate H].
      destruct (chol _ N) as [W|] eqn:EW; [|discriminate H].
      exists N, W, w. destruct refl as [r|].
      * destruct (Nat.eqb (length r) ddim); [|discriminate H]. injection H as <-. auto 12.
      * injection H as <-. auto 12.
    + cbn [bind] in H.
      destruct (minv _ _) as [N|] eqn:EN; [|discriminate H].
      destruct (chol _ N) as [W|] eqn:EW; [|discriminate H].
      exists N, W, (ones data).
      assert (length (ones data) = length data) by (unfold ones; apply map_length).
      destruct refl as [r|].
      * destruct (Nat.eqb (length r) ddim); [|discriminate H]. injection H as <-. auto 12.
      * injection H as <-. auto 12.
  - cbn [bind fst snd] in H.
    destruct (Nat.eqb_spec pdim ddim) as [Edd|]; [|discriminate H]. cbn [negb] in H.
    exists (k_ndim K), (k_matrix K).
    destruct ow as [w|].
    + destruct (Nat.eqb_spec (length w) (length data)) as [Ew|]; [|discriminate H]. cbn [bind] in H.
      destruct (minv _ _) as [N|] eqn:EN; [|discriminate H].
      destruct (chol _ N) as [W|] eqn:EW; [|discriminate H].
      exists N, W, w. destruct refl as [r|].
      * destruct (Nat.eqb (length r) ddim); [|discriminate H]. injection H as <-. auto 12.
      * injection H as <-. auto 12.
    + cbn [bind] in H.
      destruct (minv _ _) as [N|] eqn:EN; [|discriminate H].
      destruct (chol _ N) as [W|] eqn:EW; [|discriminate H].
      exists N, W, (ones data).
      assert (length (ones data) = length data) by (unfold ones; apply map_length).
      destruct refl as [r|].
      * destruct (Nat.eqb (length r) ddim); [|discriminate H]. injection H as <-. auto 12.
      * injection H as <-. auto 12.
Qed.

(* ---------------------------------------------------------------- C02 *)
Lemma Rdiv_nonneg a b : 0 <= a -> 0 < b -> 0 <= a / b.
Proof. intros. apply Rmult_le_pos; [assumption|]. left; apply Rinv_0_lt_compat; assumption. Qed.

Lemma dist_norm_nonneg d n : 0 <= dist_norm d n.
Proof.
  destruct n as [|n]; [|left; apply dist_norm_pos; lia].
  assert (Hv : 0 <= nball_vol 0).
  { unfold nball_vol. apply Rdiv_nonneg; [left; apply Rpower_half_pos|apply gammah_pos; simpl; lia]. }
  destruct d; cbn [dist_norm].
  - left; apply Rpower_half_pos.
  - exact Hv.
  - apply Rdiv_nonneg; simpl INR; lra.
  - unfold beta_kernel_norm. simpl INR. lra.
Qed.

Lemma Rdiv_nonneg0 a b : 0 <= a -> 0 <= b -> 0 <= a / b.
Proof.
  intros Ha [Hb|Hb]; [apply Rdiv_nonneg; assumption|].
  subst b. unfold Rdiv. rewrite Rinv_0. lra.
Qed.

Lemma kernel_density_nonneg K pdim ddim data w refl params f x :
  kernel_density K pdim ddim data (Some w) refl params = Ok f ->
  (forall v, In v w -> 0 <= v) -> 0 <= f x.
Proof.
  intros H Hw. destruct (kernel_density_inv _ _ _ _ _ _ _ _ H)
    as [n [M [N [W [w' [_ [_ [_ [_ [-> [_ ->]]]]]]]]]]].
  assert (Hc : forall dw, In dw (combine data w) -> 0 <= snd dw).
  { intros [a v] Hin. apply in_combine_r in Hin. apply Hw, Hin. }
  assert (Hn : 0 <= sqrt (Rabs (mdet n M)) * dist_norm (k_dist K) pdim).
  { apply Rmult_le_pos; [apply sqrt_pos|apply dist_norm_nonneg]. }
  destruct refl as [r|]; apply Rdiv_nonneg0; auto.
  - apply reflect_loop_nonneg; auto; intros; apply eval_numba_nonneg; auto.
  - apply eval_numba_nonneg; auto.
Qed.

Lemma kernel_density_le_mode d n M data w f x :
  (1 <= n)%nat -> symmetric n M ->
  kernel_density (mkKernel d n M) n n data (Some w) None None = Ok f ->
  (forall v, In v w -> 0 <= v) -> 
  f x <= lsum w * prof d 0 / (sqrt (Rabs (mdet n M)) * dist_norm d n).
Proof.
  intros Hn Hs H Hw. destruct (kernel_density_inv _ _ _ _ _ _ _ _ H)
    as [n' [M' [N [W [w' [[-> ->] [_ [HN [HW [-> [Hl ->]]]]]]]]]]]. cbn [k_ndim k_matrix k_dist] in *.
  pose proof (whiten_only_posdef n M N W Hs HN HW) as Hp.
  pose proof (sqrt_mdet_pos n M Hs Hp). pose proof (dist_norm_pos d n Hn).
  pose proof (minv_sym n M N HN Hs) as HsN.
  apply Rmult_le_compat_r; [left; apply Rinv_0_lt_compat, Rmult_lt_0_compat; assumption|].
  rewrite prof_0, Rmult_1_r.
  assert (Es : sumf snd (combine data w) = lsum w).
  { unfold sumf. f_equal. clear -Hl. revert w Hl. induction data as [|a xs IH]; intros [|y ys] H; try discriminate; [reflexivity|].
    simpl. f_equal. apply IH. simpl in H; congruence. }
  rewrite <- Es. unfold eval_numba. apply sumf_le. intros [a v] Hin. simpl.
  apply in_combine_r in Hin. specialize (Hw v Hin).
  rewrite (white_dist2_quad n N W) by assumption.
  pose proof (prof_le_1 d _ (quad_nonneg_of_chol n N W (psub x a) HW HsN)). nra.
Qed.

(* ---------------------------------------------------------------- C09 *)
Lemma kernel_density_support d n M data w f x i :
  symmetric n M -> finite d = true -> (i < n)%nat ->
  kernel_density (mkKernel d n M) n n data (Some w) None None = Ok f ->
  (forall p, In p data -> sqrt (M i i) < Rabs (x i - p i)) ->
  f x = 0.
Proof.
  intros Hs Hf Hi H Hfar. destruct (kernel_density_inv _ _ _ _ _ _ _ _ H)
    as [n' [M' [N [W [w' [[-> ->] [_ [HN [HW [-> [Hl ->]]]]]]]]]]]. cbn [k_ndim k_matrix k_dist] in *.
  pose proof (whiten_only_posdef n M N W Hs HN HW) as Hp.
  pose proof (minv_sym n M N HN Hs) as HsN.
  assert (E : eval_numba n W (prof d) (combine data w) x = 0).
  { unfold eval_numba. apply sumf_zero. intros [a v] Hin. simpl.
    apply in_combine_l in Hin. specialize (Hfar a Hin).
    rewrite (white_dist2_quad n N W) by assumption.
    pose proof (mahal_coord n M N W (psub x a) i Hs HsN (minv_sound n M N HN) HW Hi) as HC.
    rewrite prof_finite_zero; [ring|exact Hf|].
    assert (HM : 0 < M i i) by (apply (posdef_diag n); assumption).
    assert (Hsq : sqrt (M i i) * sqrt (M i i) = M i i) by (apply sqrt_sqrt; lra).
    pose proof (sqrt_lt_R0 _ HM) as Hs0.
    assert (Hd : M i i < psub x a i * psub x a i).
    { unfold psub. rewrite <- Hsq.
      replace ((x i - a i) * (x i - a i)) with (Rabs (x i - a i) * Rabs (x i - a i)).
      - nra.
      - rewrite <- Rabs_mult. apply Rabs_pos_eq. apply Rle_0_sqr. }
    apply Rmult_lt_reg_l with (M i i); [exact HM|]. lra. }
  rewrite E. unfold Rdiv. ring.
Qed.

(* ---------------------------------------------------------------- permutations (C03) *)

Lemma res_rel_bind {A B} (P : A -> A -> Prop) (Q : B -> B -> Prop) x y f g :
  res_rel P x y -> (forall a b, P a b -> res_rel Q (f a) (g b)) -> res_rel Q (bind x f) (bind y g).
Proof. destruct x, y; simpl; intros H Hf; try contradiction; auto. Qed.

Lemma mirror_perm ii loc l l' : Permutation l l' -> Permutation (mirror ii loc l) (mirror ii loc l').
Proof. apply Permutation_map. Qed.

Lemma reflect_loop_perm ev l l' x refl :
  (forall a b, Permutation a b -> ev a = ev b) -> Permutation l l' ->
  forall ii acc, reflect_loop ev l x ii refl acc = reflect_loop ev l' x ii refl acc.
Proof.
  intros Hev Hp. induction refl as [|[b|] refl IH]; intros ii acc; simpl; auto.
  assert (E : forall o, opt_term (fun loc => ev (mirror ii loc l)) o
                      = opt_term (fun loc => ev (mirror ii loc l')) o).
  { intros [loc|]; simpl; [apply Hev, mirror_perm, Hp|reflexivity]. }
  rewrite !E. apply IH.
Qed.


(** weights of a kernel_density call as a list *)
Lemma kernel_density_perm K pdim ddim data data' w w' refl params :
  length w = length data -> length w' = length data' ->
  Permutation (combine data w) (combine data' w') ->
  res_rel pt_rel (kernel_density K pdim ddim data (Some w) refl params)
                 (kernel_density K pdim ddim data' (Some w') refl params).
Proof.
  intros Hl Hl' Hp. unfold kernel_density.
  apply res_rel_bind with (P := eq).
  { destruct params as [ps|]; [|reflexivity]. destruct (forallb _ ps); [|reflexivity].
    destruct (Nat.eqb pdim (length ps)); reflexivity. }
  intros [n M] ? <-. cbn [fst snd].
  destruct (negb (Nat.eqb pdim ddim)); [reflexivity|].
  rewrite Hl, Hl', !Nat.eqb_refl. cbn [bind].
  destruct (minv n M) as [N|]; [|reflexivity]. destruct (chol n N) as [W|]; [|reflexivity].
  assert (Hev : forall x a b, Permutation a b ->
     eval_numba n W (prof (k_dist K)) a x = eval_numba n W (prof (k_dist K)) b x).
  { intros x a b Hab. apply sumf_perm, Hab. }
  destruct refl as [r|].
  - destruct (negb (Nat.eqb (length r) ddim)); [reflexivity|]. intros x. f_equal.
    rewrite (Hev x _ _ Hp). apply reflect_loop_perm; [apply Hev|exact Hp].
  - intros x. f_equal. apply Hev, Hp.
Qed.

Lemma combine_map_l {A B C} (g : A -> C) (l : list A) (w : list B) :
  combine (map g l) w = map (fun p => (g (fst p), snd p)) (combine l w).
Proof. revert w. induction l as [|a l IH]; intros [|b w]; simpl; [reflexivity..|]. rewrite IH. reflexivity. Qed.

Lemma combine_map_r {A B C} (g : B -> C) (l : list A) (w : list B) :
  combine l (map g w) = map (fun p => (fst p, g (snd p))) (combine l w).
Proof. revert w. induction l as [|a l IH]; intros [|b w]; simpl; [reflexivity..|]. rewrite IH. reflexivity. Qed.

Lemma existsb_perm {A} (f : A -> bool) l l' : Permutation l l' -> existsb f l = existsb f l'.
Proof.
  induction 1 as [|x l l' _ IH|x y l|l l' l'' _ IH1 _ IH2]; simpl.
  - reflexivity.
  - rewrite IH; reflexivity.
  - rewrite !orb_assoc. f_equal. apply orb_comm.
  - congruence.
Qed.

Lemma map_snd_combine {A B} (l : list A) (w : list B) : length w = length l -> map snd (combine l w) = w.
Proof.
  revert w. induction l as [|a l IH]; intros [|b w] H; try discriminate; [reflexivity|].
  simpl. rewrite IH; [reflexivity|]. simpl in H; congruence.
Qed.
Lemma map_fst_combine {A B} (l : list A) (w : list B) : length w = length l -> map fst (combine l w) = l.
Proof.
  revert w. induction l as [|a l IH]; intros [|b w] H; try discriminate; [reflexivity|].
  simpl. rewrite IH; [reflexivity|]. simpl in H; congruence.
Qed.

Lemma np_cov_perm l l' : Permutation l l' -> np_cov l = np_cov l'.
Proof.
  intros Hp. unfold np_cov.
  assert (Ef : cov_fact l = cov_fact l').
  { unfold cov_fact. rewrite !(sumf_perm _ _ _ Hp). reflexivity. }
  rewrite Ef. destruct (Rleb _ _); [reflexivity|]. f_equal.
  extensionality i. extensionality j. f_equal.
  assert (Em : forall k, wmean l k = wmean l' k).
  { intros k. unfold wmean. rewrite !(sumf_perm _ _ _ Hp). reflexivity. }
  rewrite !Em. apply sumf_perm, Hp.
Qed.

(** Comparison of two constructed KDEs. *)
Definition same_kde (K K' : kde) : Prop :=
  kd_ndim K = kd_ndim K' /\ kd_neff K = kd_neff K' /\ kd_kernel K = kd_kernel K'
  /\ kd_reflect K = kd_reflect K'.

Lemma kde_density_perm K K' prob pdim refl p w w' :
  same_kde K K' -> kd_weights K = Some w -> kd_weights K' = Some w' ->
  length w = length (kd_data K) -> length w' = length (kd_data K') ->
  Permutation (combine (kd_data K) w) (combine (kd_data K') w') ->
  res_rel pt_rel (kde_density K prob pdim refl p) (kde_density K' prob pdim refl p).
Proof.
  intros [E1 [E2 [E3 E4]]] Hw Hw' Hl Hl' Hp. unfold kde_density.
  rewrite <- E3, <- E4, Hw, Hw'.
  assert (ER : resolve_params K p = resolve_params K' p) by (unfold resolve_params; rewrite E1; reflexivity).
  rewrite <- ER. destruct (resolve_params K p) as [ops|e]; [|reflexivity]. cbn [bind].
  rewrite <- E1.
  set (r1 := match refl with Some r => Some r | None => _ end).
  destruct (match r1 with Some r => _ | None => false end); [reflexivity|].
  destruct (kd_kernel K) as [kern|]; [|reflexivity].
  apply res_rel_bind with (P := pt_rel).
  - apply kernel_density_perm.
    + destruct ops as [ps|]; [rewrite map_length|]; exact Hl.
    + destruct ops as [ps|]; [rewrite map_length|]; exact Hl'.
    + destruct ops as [ps|]; [rewrite !combine_map_l; apply Permutation_map|]; exact Hp.
  - intros f g Hfg. destruct prob; intros x; [|apply Hfg].
    rewrite Hfg. f_equal.
    rewrite <- (map_snd_combine _ _ Hl), <- (map_snd_combine _ _ Hl').
    apply lsum_perm, Permutation_map, Hp.
Qed.

Lemma combine_length_eq {A B} (l l' : list A) (w w' : list B) :
  length w = length l -> length w' = length l' ->
  Permutation (combine l w) (combine l' w') -> length l = length l'.
Proof.
  intros H H' Hp. apply Permutation_length in Hp. rewrite !combine_length in Hp.
  rewrite H, H', !Nat.min_id in Hp. exact Hp.
Qed.

Lemma kde_init_perm n data data' l l' b diag resc d cova neffa refl :
  length l = length data -> length l' = length data' ->
  Permutation (combine data l) (combine data' l') ->
  res_rel (fun K K' => same_kde K K' /\ exists w w', kd_weights K = Some w /\ kd_weights K' = Some w'
             /\ length w = length (kd_data K) /\ length w' = length (kd_data K')
             /\ Permutation (combine (kd_data K) w) (combine (kd_data K') w'))
    (kde_init n data (WArr l) b diag resc d cova neffa refl)
    (kde_init n data' (WArr l') b diag resc d cova neffa refl).
Proof.
  intros Hl Hl' Hp. unfold kde_init.
  pose proof (combine_length_eq _ _ _ _ Hl Hl' Hp) as El.
  rewrite <- El. destruct (Nat.eqb (length data) 0); [reflexivity|].
  assert (Hpl : Permutation l l').
  { rewrite <- (map_snd_combine _ _ Hl), <- (map_snd_combine _ _ Hl'). apply Permutation_map, Hp. }
  unfold check_weights. rewrite Hl, Hl', <- El, Nat.eqb_refl. cbn [negb].
  rewrite (existsb_perm _ _ _ Hpl).
  destruct (existsb f_nonzero l'); cbn [negb]; [|reflexivity].
  rewrite (existsb_perm (fun x => orb (negb (f_isfinite x)) (f_neg x)) _ _ Hpl).
  destruct (existsb (fun x => orb (negb (f_isfinite x)) (f_neg x)) l'); [reflexivity|]. cbn [bind].
  assert (Ew : Permutation (combine data (map f_val l)) (combine data' (map f_val l'))).
  { rewrite !combine_map_r. apply Permutation_map, Hp. }
  assert (En : neff_of (length data) (Some (map f_val l)) = neff_of (length data) (Some (map f_val l'))).
  { unfold neff_of, sumsq. pose proof (Permutation_map f_val Hpl) as Hm.
    rewrite (lsum_perm _ _ Hm), (sumf_perm _ _ _ Hm). reflexivity. }
  rewrite En. unfold wdata_of, wlist. rewrite (np_cov_perm _ _ Ew).
  set (neff := match neffa with Some x => x | None => _ end).
  destruct (set_bandwidth neff n diag b resc) as [bw|e]; [|reflexivity]. cbn [bind].
  split; [repeat split|].
  exists (map f_val l), (map f_val l'). cbn [kd_weights kd_data].
  repeat split; auto; rewrite map_length; assumption.
Qed.

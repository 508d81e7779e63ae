(** Proofs about the reflection of integer data. *)
From Coquelicot Require Import Coquelicot.
From Coq Require Import ZArith FunctionalExtensionality.
From Verif Require Import Base ModelLinAlg SpecLinAlg ProofLinAlg SpecIntegral ProofIntegral ModelKernels SpecKernels ProofKernels ModelKDE SpecKDE ProofDensity
  ProofReflect1 ModelExtrema ModelReflect SpecReflect ProofReflectArg ModelResample ModelUtils ModelSample SpecUtils ProofUtils ProofKDE ProofTop2 ProofResample4 ModelInt SpecInt ProofInt.
Open Scope R_scope.
Notation length := List.length.

(* ------------------------------------------------------------ boundaries at multiples of one half *)
Lemma mirror_same ii loc (p : pt) : whole (p ii) -> whole (2 * loc) -> mirror_int ii loc p = mirror_pt ii loc p.
Proof.
  intros [a Ha] [b Hb]. apply functional_extensionality. intros k. unfold mirror_int, mirror_pt. destruct (Nat.eqb_spec k ii) as [-> |_]; [|reflexivity].
  apply put_id. exists (b - a)%Z. rewrite minus_IZR. lra.
Qed.
Lemma loop_same ev wd x : forall refl ii acc, (forall dw i, In dw wd -> (ii <= i < ii + length refl)%nat -> whole (fst dw i)) -> on_halves refl ->
  reflect_loop_by mirror_int ev wd x ii refl acc = reflect_loop ev wd x ii refl acc.
Proof.
  induction refl as [|o refl IH]; intros ii acc Hw Hh; [reflexivity|]. cbn [reflect_loop_by reflect_loop].
  assert (Hh' : on_halves refl) by (intros b loc Hb; apply Hh; right; exact Hb).
  assert (Hw' : forall dw i, In dw wd -> (S ii <= i < S ii + length refl)%nat -> whole (fst dw i)) by (intros dw i Hd Hi; apply Hw; [exact Hd|cbn [length]; lia]).
  destruct o as [b|]; [|apply IH; assumption].
  assert (E : forall loc, fst b = Some loc \/ snd b = Some loc -> map (fun dw => (mirror_int ii loc (fst dw), snd dw)) wd = mirror ii loc wd).
  { intros loc Hl. unfold mirror. apply map_ext_in. intros dw Hd. rewrite mirror_same; [reflexivity|apply Hw; [exact Hd|cbn [length]; lia]|]. apply (Hh b loc); [left; reflexivity|exact Hl]. }
  rewrite IH by assumption. f_equal. destruct (outside b (x ii)); [reflexivity|]. destruct b as [[lo|] [hi|]]; cbn [fst snd opt_term] in *; rewrite ?E; auto.
Qed.
Lemma kernel_same K pdim ddim data w refl params : (forall r, refl = Some r -> on_halves r) -> whole_points ddim data ->
  kernel_density_by mirror_int K pdim ddim data w refl params = kernel_density K pdim ddim data w refl params.
Proof.
  intros Hr Hw. unfold kernel_density_by, kernel_density. destruct (match params with None => _ | Some _ => _ end) as [sel|]; [|reflexivity]. cbn [bind].
  destruct (negb (Nat.eqb pdim ddim)); [reflexivity|]. destruct (match w with None => _ | Some _ => _ end) as [ws|]; [|reflexivity]. cbn [bind].
  destruct (minv _ _) as [Mi|]; [|reflexivity]. destruct (chol _ _) as [W|]; [|reflexivity]. destruct refl as [r|]; [|reflexivity].
  destruct (Nat.eqb_spec (length r) ddim) as [E|]; [|reflexivity]. cbn [negb]. f_equal. apply functional_extensionality. intros x. f_equal. apply loop_same; [|apply Hr; reflexivity].
  intros [p v] i Hd Hi. apply (Hw p i); [exact (in_combine_l _ _ _ _ Hd)|cbn in Hi; lia].
Qed.
Lemma int_same : forall n data ws d M r0 K (prob : bool) pdim refl p, built_kde n data ws d M r0 K -> whole_points n data ->
  (forall r, r0 = Some r -> on_halves r) -> (forall r, refl = Some r -> on_halves r) ->
  kde_density_int K prob pdim refl p = kde_density K prob pdim refl p.
Proof.
  intros n data ws d M r0 K prob pdim refl p HB Hw H0 H1. destruct (built_inv _ _ _ _ _ _ _ HB) as (En & Ed & _ & Er & _).
  unfold kde_density_int, kde_density. destruct (resolve_params K p) as [ops|] eqn:Eo; [|reflexivity]. cbn [bind].
  set (r1 := match refl with Some r => Some r | None => _ end). destruct (match r1 with Some r => _ | None => _ end); [reflexivity|].
  destruct (kd_kernel K); [|reflexivity]. rewrite kernel_same; [reflexivity| |].
  - intros r. unfold r1. rewrite Er. destruct refl as [r'|]; [intros E; injection E as <-; apply H1; reflexivity|].
    destruct r0 as [r0|]; [|discriminate]. destruct ops as [ps|]; intros E; injection E as <-; [|apply H0; reflexivity].
    intros b loc Hb Hl. apply in_map_iff in Hb. destruct Hb as [q [Eq _]]. apply (H0 r0 eq_refl b loc); [|exact Hl]. rewrite <- Eq. apply nth_In.
    destruct (le_lt_dec (length r0) q) as [L|L]; [|exact L]. rewrite nth_overflow in Eq by exact L. discriminate.
  - destruct ops as [ps|].
    + intros y i Hy Hi. apply in_map_iff in Hy. destruct Hy as [z [<- Hz]]. rewrite Ed in Hz. change (whole (z (nth i ps O))). apply Hw; [exact Hz|].
      assert (Hq : In (nth i ps O) ps) by (apply nth_In, Hi). unfold resolve_params in Eo.
      destruct p as [|q|l]; [discriminate| |].
      * destruct (Nat.eqb _ 1); [destruct (Nat.eqb q 0); discriminate|]. destruct (Nat.ltb_spec q (kd_ndim K)); [|discriminate]. injection Eo as <-. destruct Hq as [<-|[]]. lia.
      * destruct (Nat.eqb _ 1); [discriminate|]. destruct (forallb _ l) eqn:F; [|discriminate]. injection Eo as <-. rewrite forallb_forall in F. specialize (F _ Hq).
        apply Nat.ltb_lt in F. lia.
    + rewrite En, Ed. exact Hw.
Qed.
Lemma mirrors_same : forall data (refl : reflspec) ii, (forall p i, In p data -> (ii <= i < ii + length refl)%nat -> whole (p i)) -> on_halves refl ->
  all_mirrors_int ii refl data = all_mirrors ii refl data.
Proof.
  intros data. induction refl as [|o refl IH]; intros ii Hw Hh; [reflexivity|]. cbn [all_mirrors_int all_mirrors]. f_equal.
  - assert (E : forall b loc, o = Some b -> fst b = Some loc \/ snd b = Some loc -> map (mirror_int ii loc) data = map (mirror_pt ii loc) data).
    { intros b loc -> Hl. apply map_ext_in. intros p Hp. apply mirror_same; [apply Hw; [exact Hp|cbn [length]; lia]|]. apply (Hh b loc); [left; reflexivity|exact Hl]. }
    destruct o as [[[lo|] [hi|]]|]; cbn [mirrors_int mirrors_of fst snd]; rewrite ?(E _ _ eq_refl (or_introl eq_refl)), ?(E _ _ eq_refl (or_intror eq_refl)); reflexivity.
  - apply IH; [|intros b loc Hb; apply Hh; right; exact Hb]. intros p i Hp Hi. apply Hw; [exact Hp|cbn [length]; lia].
Qed.
Lemma drawn_same : forall data w (refl : reflspec), whole_points (length refl) data -> on_halves refl -> drawn_from_int data w refl = drawn_from data w refl.
Proof.
  intros data w refl Hw Hh. unfold drawn_from_int, drawn_from, reflect_data_int, reflect_data. cbv zeta. cbn [fst snd].
  rewrite mirrors_same; [reflexivity| |exact Hh]. intros p i Hp Hi. apply Hw; [exact Hp|cbn in Hi; lia].
Qed.
(** Images inside. *)
Lemma drawn_refuted : exists (data : list pt) (refl : reflspec), whole_points 1 data /\ (forall p, In p data -> inside refl p = true)
  /\ drawn_from data None refl = (data, None) /\ exists p q, data = [p; q] /\ p O <> q O /\ exists p', drawn_from_int data None refl = ([p; q; p'], None) /\ p' O = p O.
Proof.
  exists [pt1 0; pt1 1], [Some (Some (- / 4), None)]. unfold pt1.
  assert (T : forall x y, y < x -> Rltb y x = true) by (intros; apply Rltb_true; assumption). assert (F : forall x y, x <= y -> Rltb y x = false) by (intros; apply Rltb_false; assumption).
  split; [intros p i [<-|[<-|[]]] _; [exists 0%Z|exists 1%Z]; reflexivity|]. split; [intros p [<-|[<-|[]]]; unfold inside; cbn; rewrite T by lra; reflexivity|]. split.
  - unfold drawn_from, reflect_data, truncate, inside. cbn. unfold mirror_pt. cbn. rewrite (T 0), (T 1), !F by lra. reflexivity.
  - eexists _, _. split; [reflexivity|]. split; [lra|]. eexists. unfold drawn_from_int, reflect_data_int, truncate, inside. cbn. unfold mirror_int. cbn.
    assert (E0 : put_int (2 * - / 4 - 0) = 0).
    { destruct (put_neg (2 * - / 4 - 0)) as [A B]; [lra|]. destruct (put_whole (2 * - / 4 - 0)) as [z Ez]. rewrite Ez in *. assert (P : IZR (-1) < IZR z) by lra. apply lt_IZR in P. apply le_IZR in B. f_equal. lia. }
    assert (E1 : put_int (2 * - / 4 - 1) = -1).
    { destruct (put_neg (2 * - / 4 - 1)) as [A B]; [lra|]. destruct (put_whole (2 * - / 4 - 1)) as [z Ez]. rewrite Ez in *. assert (P : IZR (-2) < IZR z) by lra.
      assert (Q : IZR z < IZR 0) by lra. apply lt_IZR in P, Q. f_equal. lia. }
    rewrite E0, E1. rewrite (T 0), (T 1), !F by lra. cbn. split; reflexivity.
Qed.

(* ------------------------------------------------------------ one dimension, a lower boundary *)
Lemma lt_t x y : x < y -> Rltb x y = true. Proof. apply Rltb_true. Qed.
Lemma lt_f x y : y <= x -> Rltb x y = false. Proof. apply Rltb_false. Qed.
Lemma le_t x y : x <= y -> Rleb x y = true. Proof. apply Rleb_true. Qed.
Lemma le_f x y : y < x -> Rleb x y = false. Proof. apply Rleb_false. Qed.
Lemma eq_f x y : x < y \/ y < x -> Reqb x y = false. Proof. intros H. apply Reqb_false. lra. Qed.
Lemma tails_exist h : is_tint h 1 -> (forall t, h (- t) = h t) -> (forall t, 0 <= h t) ->
  exists T, tails h T /\ (forall p q, p <= q -> T q <= T p) /\ (forall p, T p + T (- p) = 1).
Proof.
  intros Hh He Hn.
  assert (H0 : is_tint (fun t => if Rltb t 0 then 0 else h t) (/ 2)).
  { replace (/ 2) with (/ 2 * 1) by lra. apply tint_ext with (2 := tint_scal (/ 2) _ _ (fold_lower h 1 0 Hh)). intros x. cbv beta.
    destruct (Rltb x 0); [ring|]. replace (2 * 0 - x) with (- x) by ring. rewrite He. lra. }
  set (T := fun p => / 2 - RInt h 0 p).
  assert (Hp : tails h T).
  { intros p. unfold T. destruct (Rle_lt_dec 0 p) as [P|P].
    - destruct (tint_ex_RInt h 1 0 p Hh P) as [y Hy].
      assert (C : is_tint (fun t => if orb (Rltb t 0) (Rleb p t) then 0 else h t) y).
      { apply tint_compact with 0 p; [exact P| | |].
        - apply is_RInt_ext with (2 := Hy). intros x Hx. rewrite Rmin_left, Rmax_right in Hx by exact P. rewrite lt_f, le_f by lra. reflexivity.
        - intros x Hx. rewrite lt_t by lra. reflexivity.
        - intros x Hx. rewrite (le_t p x) by lra. rewrite Bool.orb_true_r. reflexivity. }
      rewrite (is_RInt_unique _ _ _ _ Hy). replace (/ 2 - y) with (/ 2 + -1 * y) by ring.
      apply tint_ext with (2 := tint_plus _ _ _ _ H0 (tint_scal (-1) _ _ C)). intros x. cbv beta.
      destruct (Rltb_spec x p), (Rltb_spec x 0), (Rleb_spec p x); cbn [orb]; try lra; ring.
    - destruct (tint_ex_RInt h 1 p 0 Hh ltac:(lra)) as [y Hy].
      assert (C : is_tint (fun t => if orb (Rltb t p) (Rleb 0 t) then 0 else h t) y).
      { apply tint_compact with p 0; [lra| | |].
        - apply is_RInt_ext with (2 := Hy). intros x Hx. rewrite Rmin_left, Rmax_right in Hx by lra. rewrite lt_f, le_f by lra. reflexivity.
        - intros x Hx. rewrite lt_t by lra. reflexivity.
        - intros x Hx. rewrite (le_t 0 x) by lra. rewrite Bool.orb_true_r. reflexivity. }
      rewrite (is_RInt_unique _ _ _ _ (is_RInt_swap _ _ _ _ Hy)). replace (/ 2 - opp y) with (/ 2 + y) by (change (opp y) with (- y); ring).
      apply tint_ext with (2 := tint_plus _ _ _ _ H0 C). intros x. cbv beta.
      destruct (Rltb_spec x p), (Rltb_spec x 0), (Rleb_spec 0 x); cbn [orb]; try lra; ring. }
  exists T. split; [exact Hp|]. split.
  - intros p q Hpq. apply Rminus_le. assert (P : 0 <= T p + -1 * T q); [|lra].
    apply (tint_nonneg _ _) with (2 := tint_plus _ _ _ _ (Hp p) (tint_scal (-1) _ _ (Hp q))). intros x. cbv beta. specialize (Hn x).
    destruct (Rltb_spec x p), (Rltb_spec x q); lra.
  - intros p. apply (tint_unique h); [|exact Hh]. pose proof (tint_opp _ _ (Hp (- p))) as Ho.
    assert (Z : is_tint (fun t => if Reqb t p then - h t else 0) 0).
    { apply tint_compact with p p; [lra|exact (is_RInt_point (fun t => if Reqb t p then - h t else 0) p)| |]; intros x Hx; rewrite eq_f by lra; reflexivity. }
    replace (T p + T (- p)) with (T p + T (- p) + 0) by ring. apply tint_ext with (2 := tint_plus _ _ _ _ (tint_plus _ _ _ _ (Hp p) Ho) Z). intros x. cbv beta. rewrite He.
    destruct (Rltb_spec x p), (Rltb_spec (- x) (- p)), (Reqb_spec x p); try lra; exfalso; apply n; lra.
Qed.

Lemma eval_1 W d wd x : eval_numba 1 W (prof d) wd x = sumf (fun dw => prof d ((W O O * (x O - fst dw O)) * (W O O * (x O - fst dw O))) * snd dw) wd.
Proof. unfold eval_numba. apply sumf_ext. intros [p v] _. rewrite white_dist2_1. cbn [fst snd]. apply (f_equal (fun u => prof d u * v)). ring. Qed.

Lemma kernel_int_total d M data ws lo base : 0 < M O O -> length ws = length data ->
  exists h T f, kernel_density (mkKernel d 1 M) 1 1 [origin] (Some [1]) None None = Ok h /\ tails (fun t => h (pt1 t)) T
    /\ (forall p q, p <= q -> T q <= T p) /\ (forall p, T p + T (- p) = 1)
    /\ kernel_density_by mirror_int (mkKernel d 1 M) 1 1 data (Some ws) (Some [Some (Some lo, None)]) None = Ok f
    /\ forall img : pt -> R, (forall p, In p data -> put_int (2 * lo - p O) = img p) ->
       is_tintN 1 f base (sumf (fun pw => snd pw * (T (lo - fst pw O) + T (lo - img (fst pw)))) (combine data ws)).
Proof.
  intros HM Hw. destruct (posdef_1 M HM) as [Hs Hp]. destruct (whiten_posdef 1 M Hs Hp) as [N [W [HN [HW _]]]].
  set (Z := sqrt (Rabs (mdet 1 M)) * dist_norm d 1).
  assert (Hh : kernel_density (mkKernel d 1 M) 1 1 [origin] (Some [1]) None None = Ok (fun x => eval_numba 1 W (prof d) [(origin, 1)] x / Z)).
  { unfold kernel_density. cbn [k_ndim k_matrix k_dist bind fst snd length Nat.eqb negb]. rewrite HN, HW. reflexivity. }
  assert (Vh : forall x, eval_numba 1 W (prof d) [(origin, 1)] x / Z = prof d ((W O O * x O) * (W O O * x O)) / Z).
  { intros x. rewrite eval_1. cbn. f_equal. unfold origin. rewrite Rminus_0_r. ring. }
  pose proof (density_1_tint d M [origin] [1] _ HM eq_refl Hh) as Hi. replace (lsum [1]) with 1 in Hi by (cbn; ring).
  destruct (tails_exist _ Hi) as [T [HT [Tm Ts]]].
  { intros t. cbv beta. rewrite !Vh. unfold pt1. f_equal. f_equal. ring. }
  { intros t. apply (kernel_density_nonneg _ _ _ _ _ _ _ _ (pt1 t) Hh). intros v [<-|[]]. lra. }
  assert (Hf : kernel_density_by mirror_int (mkKernel d 1 M) 1 1 data (Some ws) (Some [Some (Some lo, None)]) None = Ok
    (fun x => reflect_loop_by mirror_int (fun wd => eval_numba 1 W (prof d) wd x) (combine data ws) x 0 [Some (Some lo, None)] (eval_numba 1 W (prof d) (combine data ws) x) / Z)).
  { unfold kernel_density_by. cbn [k_ndim k_matrix k_dist bind fst snd length Nat.eqb negb]. rewrite Hw, Nat.eqb_refl. cbn [bind]. rewrite HN, HW. reflexivity. }
  eexists _, T, _. split; [exact Hh|]. split; [exact HT|]. split; [exact Tm|]. split; [exact Ts|]. split; [exact Hf|].
  intros img Hg. apply tintN_1.
  assert (S1 : forall a, is_tint (fun t => if Rltb t lo then 0 else prof d ((W O O * (t - a)) * (W O O * (t - a))) / Z) (T (lo - a))).
  { intros a. replace (T (lo - a)) with (T (lo - a) / 1) by field. apply tint_ext with (2 := tint_comp_lin _ _ 1 (- a) Rlt_0_1 (HT (lo - a))). intros t. cbv beta.
    replace (Rltb (1 * t + - a) (lo - a)) with (Rltb t lo) by (destruct (Rltb_spec t lo), (Rltb_spec (1 * t + - a) (lo - a)); try reflexivity; lra).
    destruct (Rltb t lo); [reflexivity|]. rewrite Vh. unfold pt1. replace (1 * t + - a) with (t - a) by ring. reflexivity. }
  apply tint_ext with (f := fun t => sumf (fun pw => snd pw * ((if Rltb t lo then 0 else prof d ((W O O * (t - fst pw O)) * (W O O * (t - fst pw O))) / Z)
      + (if Rltb t lo then 0 else prof d ((W O O * (t - img (fst pw))) * (W O O * (t - img (fst pw)))) / Z))) (combine data ws)).
  2: { apply tint_sumf. intros pw _. apply tint_scal, tint_plus; apply S1. }
  intros t. cbn [reflect_loop_by fst snd opt_term]. unfold outside. cbn [fst snd]. rewrite Bool.orb_false_r, Rplus_0_r, !eval_1, sumf_map. cbn [fst snd]. rewrite !upd_same.
  destruct (Rltb t lo).
  - unfold Rdiv. rewrite Rmult_0_l. apply sumf_zero. intros; ring.
  - rewrite <- sumf_plus. unfold Rdiv. rewrite Rmult_comm, <- sumf_scal. apply sumf_ext. intros [p v] Hpw. cbn [fst snd]. unfold mirror_int at 1 2. cbn [Nat.eqb].
    rewrite (Hg p (in_combine_l _ _ _ _ Hpw)). ring.
Qed.
Lemma towards_zero_unique x t t' : towards_zero x t -> towards_zero x t' -> t = t'.
Proof.
  intros [[a Ha] [B [C D]]] [[a' Ha'] [B' [C' D']]].
  assert (P : Rabs (t - t') < 1).
  { assert (Q : forall t, Rabs t <= Rabs x -> Rabs (x - t) < 1 -> 0 <= t * x -> (0 <= x -> x - 1 < t <= x) /\ (x <= 0 -> x <= t < x + 1)).
    { clear. intros t B C D. apply Rabs_def2 in C. split; intros H.
      - split; [lra|]. rewrite (Rabs_right x) in B by lra. pose proof (Rle_abs t). lra.
      - split; [|lra]. rewrite (Rabs_left1 x) in B by lra. pose proof (Rle_abs (- t)) as P. rewrite Rabs_Ropp in P. lra. }
    destruct (Q t B C D) as [Q1 Q2], (Q t' B' C' D') as [Q3 Q4]. destruct (Rle_lt_dec 0 x) as [H|H].
    - specialize (Q1 H). specialize (Q3 H). apply Rabs_def1; lra.
    - assert (H' : x <= 0) by lra. specialize (Q2 H'). specialize (Q4 H'). apply Rabs_def1; lra. }
  rewrite Ha, Ha' in *. rewrite <- minus_IZR in P. apply Rabs_def2 in P. destruct P as [P1 P2]. change 1 with (IZR 1) in P1. change (- (1)) with (IZR (-1)) in P2. apply lt_IZR in P1, P2. f_equal. lia.
Qed.
Lemma density_int_as data ws d M refl K (prob : bool) b : built_kde 1 data ws d M refl K ->
  kde_density_int K prob 1 (Some [b]) PNone = do f <- kernel_density_by mirror_int (mkKernel d 1 M) 1 1 data (Some ws) (Some [b]) None ;; Ok (scaled prob ws f).
Proof.
  intros HB. destruct (built_inv _ _ _ _ _ _ _ HB) as (En & Ed & Hne & Er & Ew & Hl & Hnn & Hp & Et & Ek & Hs & Hpd).
  unfold kde_density_int. cbn [resolve_params bind]. cbv zeta. rewrite En, Ek, Ed. cbn [length Nat.eqb negb].
  assert (E : kernel_density_by mirror_int (mkKernel d 1 M) 1 1 data (kd_weights K) (Some [b]) None = kernel_density_by mirror_int (mkKernel d 1 M) 1 1 data (Some ws) (Some [b]) None).
  { unfold kernel_density_by. destruct (kd_weights K) as [w|]; cbn [wlist] in Ew; [rewrite Ew; reflexivity|]. rewrite Hl, !Nat.eqb_refl, <- Ew. reflexivity. }
  assert (C : forall (X Y : res (pt -> R)) (F G : (pt -> R) -> res (pt -> R)), X = Y -> (forall f, F f = G f) -> bind X F = bind Y G) by (intros [x|e] Y F G <- H; [apply H|reflexivity]).
  apply C; [exact E|]. intros f. unfold scaled. destruct prob; [|reflexivity]. rewrite Et. reflexivity.
Qed.
Lemma int_total_lower : forall data ws d M refl K (prob : bool) lo base, built_kde 1 data ws d M refl K -> whole_points 1 data ->
  exists h T f, kernel_density (mkKernel d 1 M) 1 1 [origin] (Some [1]) None None = Ok h /\ tails (fun t => h (pt1 t)) T
    /\ (forall p q, p <= q -> T q <= T p) /\ (forall p, T p + T (- p) = 1)
    /\ kde_density_int K prob 1 (Some [Some (Some lo, None)]) PNone = Ok f
    /\ forall img : pt -> R, (forall p, In p data -> towards_zero (2 * lo - p O) (img p)) ->
       is_tintN 1 f base (mass prob ws / lsum ws * sumf (fun pw => snd pw * (T (lo - fst pw O) + T (lo - img (fst pw)))) (combine data ws)).
Proof.
  intros data ws d M refl K prob lo base HB Hw. destruct (built_inv _ _ _ _ _ _ _ HB) as (En & Ed & Hne & Er & Ew & Hl & Hnn & Hp & Et & Ek & Hs & Hpd).
  assert (HM : 0 < M O O).
  { specialize (Hpd (fun _ => 1) (ex_intro _ O (conj (le_n 1) R1_neq_R0))). unfold quad in Hpd. cbn [rsum] in Hpd. lra. }
  destruct (kernel_int_total d M data ws lo base HM Hl) as (h & T & f & Hh & HT & Tm & Ts & Hf & Hi).
  exists h, T, (scaled prob ws f). repeat (split; [assumption|]). split; [rewrite (density_int_as _ _ _ _ _ _ prob _ HB); apply (f_equal (fun X => bind X (fun g => Ok (scaled prob ws g))) Hf)|].
  intros img Hg. specialize (Hi img). set (V := sumf _ _) in *. replace (mass prob ws / lsum ws * V) with (mass prob ws * (V / lsum ws)) by (field; lra).
  apply scaled_tint; [exact Hp|]. replace (lsum ws * (V / lsum ws)) with V by (field; lra). apply Hi.
  intros p Hin. apply (towards_zero_unique (2 * lo - p O)); [apply put_spec|apply Hg, Hin].
Qed.
Lemma sumf_snd_comb (data : list pt) (ws : list R) : length ws = length data -> sumf (fun pw : pt * R => snd pw * 1) (combine data ws) = lsum ws.
Proof.
  revert ws. induction data as [|p data IH]; intros [|v ws] H; try discriminate; [reflexivity|]. cbn [combine]. rewrite sumf_cons. cbn [lsum fold_right snd].
  injection H as H. rewrite IH by exact H. unfold lsum. cbn. lra.
Qed.
(** Boundary at or below zero: the total is at least the sum of the weights; positive images: at most. *)
Lemma int_total_side : forall data ws d M refl K (prob : bool) lo base, built_kde 1 data ws d M refl K -> whole_points 1 data ->
  exists f v, kde_density_int K prob 1 (Some [Some (Some lo, None)]) PNone = Ok f /\ is_tintN 1 f base v
    /\ ((forall p, In p data -> 2 * lo <= p O) -> mass prob ws <= v) /\ ((forall p, In p data -> p O <= 2 * lo) -> v <= mass prob ws).
Proof.
  intros data ws d M refl K prob lo base HB Hw. destruct (built_inv _ _ _ _ _ _ _ HB) as (En & Ed & Hne & Er & Ew & Hl & Hnn & Hp & Et & Ek & Hs & Hpd).
  destruct (int_total_lower data ws d M refl K prob lo base HB Hw) as (h & T & f & Hh & HT & Tm & Ts & Hf & Hi).
  assert (Hm : 0 < mass prob ws / lsum ws) by (apply Rdiv_lt_0_compat; [unfold mass; destruct prob; lra|exact Hp]).
  assert (Em : mass prob ws = mass prob ws / lsum ws * sumf (fun pw : pt * R => snd pw * 1) (combine data ws)) by (rewrite sumf_snd_comb by exact Hl; field; lra).
  exists f. eexists. split; [exact Hf|]. split; [apply (Hi (fun p => put_int (2 * lo - p O))); intros; apply put_spec|]. split; intros H.
  - rewrite Em at 1. apply Rmult_le_compat_l; [lra|]. apply sumf_le. intros [p v] Hin. cbn [fst snd]. pose proof (in_combine_l _ _ _ _ Hin) as I1.
    apply Rmult_le_compat_l; [apply Hnn; exact (in_combine_r _ _ _ _ Hin)|]. rewrite <- (Ts (lo - p O)). apply Rplus_le_compat_l, Tm.
    specialize (H p I1). destruct (Rle_lt_or_eq_dec _ _ H) as [L|L]; [destruct (put_neg (2 * lo - p O)); lra|].
    replace (2 * lo - p O) with (IZR 0) by lra. rewrite put_id by (exists 0%Z; reflexivity). lra.
  - rewrite Em at 2. apply Rmult_le_compat_l; [lra|]. apply sumf_le. intros [p v] Hin. cbn [fst snd]. pose proof (in_combine_l _ _ _ _ Hin) as I1.
    apply Rmult_le_compat_l; [apply Hnn; exact (in_combine_r _ _ _ _ Hin)|]. rewrite <- (Ts (lo - p O)). apply Rplus_le_compat_l, Tm.
    specialize (H p I1). destruct (put_pos (2 * lo - p O)); lra.
Qed.

(* ------------------------------------------------------------ the box kernel *)
Definition kx (x : R) (d : dist) : kde := mkKDE 1 [pt1 x] None 1 (Some (mkKernel d 1 ident)) None.
Lemma kx_built x d : built_kde 1 [pt1 x] [1] d ident None (kx x d).
Proof.
  split.
  - exists WNone, (BwAtom (BNum 1)), false, None, (Some ident), None. split; [left; split; reflexivity|]. unfold kde_init. cbn [length Nat.eqb check_weights bind set_bandwidth compute_bandwidth].
    unfold kernel_init. rewrite kernel_matrix_1. unfold kx, neff_of. cbn [INR]. reflexivity.
  - split; [reflexivity|split; [apply ident_sym|apply ident_posdef]].
Qed.
Lemma box_origin h t : kernel_density (mkKernel Box 1 ident) 1 1 [origin] (Some [1]) None None = Ok h -> h (pt1 t) = if Rleb (t * t) 1 then / 2 else 0.
Proof.
  intros H. destruct (kernel_density_inv _ _ _ _ _ _ _ _ H) as [n' [M' [N [W [w' [[-> ->] [_ [HN [HW [-> [Hl ->]]]]]]]]]]]. cbn [k_ndim k_matrix k_dist] in *.
  rewrite mdet_ident, Rabs_R1, sqrt_1, Rmult_1_l. cbn [dist_norm]. rewrite nball_vol_1.
  cbn [combine]. unfold eval_numba, sumf. cbn [map lsum fold_right fst snd]. rewrite (ident_white 1 N W _ _ HN HW). unfold norm2, psub, pt1, origin. cbn [rsum prof].
  replace (0 + (t - 0) * (t - 0)) with (t * t) by ring. destruct (Rleb (t * t) 1); lra.
Qed.
Lemma box_tail h T q : kernel_density (mkKernel Box 1 ident) 1 1 [origin] (Some [1]) None None = Ok h -> tails (fun t => h (pt1 t)) T -> -1 <= q <= 1 -> T q = (1 - q) / 2.
Proof.
  intros Hh HT Hq. apply (tint_unique _ _ _ (HT q)). apply tint_compact with q 1; [lra| | |].
  - apply is_RInt_ext with (fun _ => / 2); [|apply is_RInt_const_eq; field]. intros x Hx. rewrite Rmin_left, Rmax_right in Hx by lra. rewrite lt_f by lra. rewrite (box_origin _ _ Hh), le_t by nra. reflexivity.
  - intros x Hx. rewrite lt_t by lra. reflexivity.
  - intros x Hx. rewrite lt_f by lra. rewrite (box_origin _ _ Hh), le_f by nra. reflexivity.
Qed.
Lemma box_total x lo i : whole x -> towards_zero (2 * lo - x) i -> -1 <= lo - x <= 1 -> -1 <= lo - i <= 1 ->
  exists f, kde_density_int (kx x Box) true 1 (Some [Some (Some lo, None)]) PNone = Ok f /\ is_tintN 1 f origin ((1 - (lo - x)) / 2 + (1 - (lo - i)) / 2).
Proof.
  intros Hx Hi H1 H2. destruct (int_total_lower _ _ _ _ _ _ true lo origin (kx_built x Box)) as (h & T & f & Hh & HT & Tm & Ts & Hf & HI).
  { intros p k [<-|[]] _. exact Hx. }
  exists f. split; [exact Hf|]. specialize (HI (fun _ => i)). cbn [combine] in HI. unfold sumf in HI. cbn [map lsum fold_right fst snd mass] in HI.
  rewrite (box_tail h T (lo - pt1 x O) Hh HT), (box_tail h T (lo - i) Hh HT) in HI by (unfold pt1; lra). unfold pt1 in HI. 
  match type of HI with _ -> is_tintN _ _ _ ?v => replace ((1 - (lo - x)) / 2 + (1 - (lo - i)) / 2) with v by field end. apply HI. intros p [<-|[]]. exact Hi.
Qed.
Lemma int_true_refuted : exists data K lo f g v, built_kde 1 data [1] Box ident None K /\ whole_points 1 data
  /\ check_reflect 1 data (RSeq KList [EAtom (VBool true); EAtom VNone]) = (RSeq KList [EAtom (VBool true); EAtom VNone], Ok (Some [Some (Some lo, None)]))
  /\ kde_density K true 1 (Some [Some (Some lo, None)]) PNone = Ok f /\ is_tintN 1 f origin 1
  /\ kde_density_int K true 1 (Some [Some (Some lo, None)]) PNone = Ok g /\ is_tintN 1 g origin v /\ v < 3 / 4.
Proof.
  assert (P : 0 < num_pad < / 4) by (unfold num_pad; lra).
  destruct (top_reflect_one [pt1 1] [1] Box ident None (kx 1 Box) true (Some (1 * (1 - num_pad)), None) origin (kx_built 1 Box)) as [f [Hf [Hi _]]]; [right; reflexivity|].
  destruct (box_total 1 (1 * (1 - num_pad)) 0) as [g [Hg Hgi]]; [exists 1%Z; reflexivity| |lra|lra|].
  { split; [exists 0%Z; reflexivity|]. rewrite Rabs_R0, Rminus_0_r, Rabs_right by lra. repeat split; lra. }
  exists [pt1 1], (kx 1 Box), (1 * (1 - num_pad)), f, g. eexists. split; [apply kx_built|]. split; [intros p k [<-|[]] _; exists 1%Z; reflexivity|].
  split; [apply pair_true_none; [discriminate|split; [exists (pt1 1); split; [left; reflexivity|reflexivity]|intros p [<-|[]]; unfold pt1; lra]]|].
  split; [exact Hf|]. split; [exact Hi|]. split; [exact Hg|]. split; [exact Hgi|lra].
Qed.
Lemma int_more_refuted : exists data K lo g v, built_kde 1 data [1] Box ident None K /\ whole_points 1 data /\ (forall p, In p data -> lo <= p O)
  /\ kde_density_int K true 1 (Some [Some (Some lo, None)]) PNone = Ok g /\ is_tintN 1 g origin v /\ v = 5 / 4.
Proof.
  destruct (box_total 0 (- / 4) 0) as [g [Hg Hgi]]; [exists 0%Z; reflexivity| |lra|lra|].
  { split; [exists 0%Z; reflexivity|]. rewrite Rabs_R0. split; [apply Rabs_pos|]. split; [rewrite Rabs_left; lra|lra]. }
  exists [pt1 0], (kx 0 Box), (- / 4), g. eexists. split; [apply kx_built|]. split; [intros p k [<-|[]] _; exists 0%Z; reflexivity|]. split; [intros p [<-|[]]; unfold pt1; lra|].
  split; [exact Hg|]. split; [exact Hgi|lra].
Qed.

(** The slope of the density. *)
From Coquelicot Require Import Coquelicot.
From Verif Require Import Base ModelLinAlg SpecLinAlg ModelKernels SpecKernels SpecIntegral ModelKDE SpecKDE SpecContinuous SpecShape SpecSlope
  ProofLinAlg ProofKernels ProofDensity ProofTop ProofTop2 ProofTop3 ProofGrid3 ProofExamples ProofKDE ProofReflect1 ProofInt2 ProofCdfError ProofShape.
Open Scope R_scope.
Notation length := List.length.

(** * Profiles *)
Lemma prof_slope d r : smooth d r -> is_derive (spec_prof d) r (- falling d r).
Proof.
  intros Hs. destruct d; unfold falling; cbn [smooth] in Hs.
  - unfold spec_prof. auto_derive; [trivial|]. unfold Rdiv. lra.
  - destruct (Rle_dec r 1) as [H|H].
    + apply (is_derive_ext_loc (fun _ => 1)); [|auto_derive; [trivial|lra]]. exists (mkposreal (1 - r) ltac:(lra)). intros y Hy. change (Rabs (y - r) < 1 - r) in Hy. apply Rabs_def2 in Hy. unfold spec_prof. destruct (Rle_dec y 1); lra.
    + apply (is_derive_ext_loc (fun _ => 0)); [|auto_derive; [trivial|lra]]. exists (mkposreal (r - 1) ltac:(lra)). intros y Hy. change (Rabs (y - r) < r - 1) in Hy. apply Rabs_def2 in Hy. unfold spec_prof. destruct (Rle_dec y 1); lra.
  - destruct (Rlt_dec r 1) as [H|H].
    + apply (is_derive_ext_loc (fun y => 1 - y)); [|auto_derive; [trivial|lra]]. exists (mkposreal (1 - r) ltac:(lra)). intros y Hy. change (Rabs (y - r) < 1 - r) in Hy. apply Rabs_def2 in Hy. unfold spec_prof. destruct (Rle_dec y 1); lra.
    + apply (is_derive_ext_loc (fun _ => 0)); [|auto_derive; [trivial|lra]]. exists (mkposreal (r - 1) ltac:(lra)). intros y Hy. change (Rabs (y - r) < r - 1) in Hy. apply Rabs_def2 in Hy. unfold spec_prof. destruct (Rle_dec y 1); lra.
  - destruct (Rlt_dec r 1) as [H|H].
    + apply (is_derive_ext_loc (fun y => (1 - y) * (1 - y) * (1 - y))); [|auto_derive; [trivial|ring]]. exists (mkposreal (1 - r) ltac:(lra)). intros y Hy. change (Rabs (y - r) < 1 - r) in Hy. apply Rabs_def2 in Hy. unfold spec_prof. destruct (Rle_dec y 1); lra.
    + destruct (Req_dec r 1) as [->|Hr].
      * replace (- 0) with 0 by ring. split; [apply is_linear_scal_l|]. intros x Hx. pose proof (is_filter_lim_locally_unique (K := R_AbsRing) (V := R_NormedModule) _ _ Hx) as Ex. subst x. clear Hx. intros eps.
        assert (Hd : 0 < Rmin 1 eps) by (apply Rmin_glb_lt; [lra|apply cond_pos]). exists (mkposreal _ Hd). intros y Hy. change (Rabs (y - 1) < Rmin 1 eps) in Hy.
        change (Rabs (spec_prof Triweight y - spec_prof Triweight 1 - (y - 1) * 0) <= eps * Rabs (y - 1)).
        assert (H1 : Rabs (y - 1) < 1) by (apply Rlt_le_trans with (1 := Hy); apply Rmin_l). assert (H2 : Rabs (y - 1) < eps) by (apply Rlt_le_trans with (1 := Hy); apply Rmin_r).
        assert (E : Rabs (spec_prof Triweight y - spec_prof Triweight 1 - (y - 1) * 0) <= Rabs (y - 1) * Rabs (y - 1) * Rabs (y - 1)).
        { unfold spec_prof. destruct (Rle_dec 1 1) as [_|]; [|lra]. destruct (Rle_dec y 1) as [Hy1|Hy1].
          - replace ((1 - y) * (1 - y) * (1 - y) - (1 - 1) * (1 - 1) * (1 - 1) - (y - 1) * 0) with ((1 - y) * (1 - y) * (1 - y)) by ring. rewrite !Rabs_mult, (Rabs_minus_sym 1 y). lra.
          - replace (0 - (1 - 1) * (1 - 1) * (1 - 1) - (y - 1) * 0) with 0 by ring. rewrite Rabs_R0. repeat apply Rmult_le_pos; apply Rabs_pos. }
        apply Rle_trans with (1 := E). apply Rmult_le_compat_r; [apply Rabs_pos|]. pose proof (Rabs_pos (y - 1)). apply Rle_trans with (1 * Rabs (y - 1)); [apply Rmult_le_compat_r; lra|lra].
      * apply (is_derive_ext_loc (fun _ => 0)); [|auto_derive; [trivial|lra]]. exists (mkposreal (r - 1) ltac:(lra)). intros y Hy. change (Rabs (y - r) < r - 1) in Hy. apply Rabs_def2 in Hy. unfold spec_prof. destruct (Rle_dec y 1); lra.
Qed.
Lemma falling_nonneg d r : 0 <= falling d r.
Proof.
  destruct d; cbn; [apply Rmult_le_pos; [left; apply exp_pos|lra]|lra|destruct (Rlt_dec r 1); lra|destruct (Rlt_dec r 1); [|lra]]. apply Rmult_le_pos; [lra|apply Rle_0_sqr].
Qed.
Lemma prof_convex d r s : d <> Box -> 0 <= r -> 0 <= s -> spec_prof d r + falling d r * (r - s) <= spec_prof d s.
Proof.
  intros Hd Hr Hs. destruct d; [| contradiction | |]; unfold spec_prof, falling.
  - replace (- (s / 2)) with (- (r / 2) + (r - s) / 2) by field. rewrite exp_plus. pose proof (exp_pos (- (r / 2))) as Hp.
    assert (H : 1 + (r - s) / 2 <= exp ((r - s) / 2)). { destruct (Req_dec ((r - s) / 2) 0) as [->|Hne]; [rewrite exp_0; lra|left; apply exp_ineq1; exact Hne]. }
    pose proof (Rmult_le_compat_l _ _ _ (Rlt_le _ _ Hp) H). lra.
  - destruct (Rle_dec r 1), (Rlt_dec r 1), (Rle_dec s 1); lra.
  - assert (P : forall a b, 0 <= a -> 0 <= b -> a * a * a + 3 * (a * a) * (b - a) <= b * b * b).
    { intros a b Ha Hb. assert (0 <= (b - a) * (b - a) * (b + 2 * a)) by (apply Rmult_le_pos; [apply Rle_0_sqr|lra]). lra. }
    destruct (Rle_dec r 1) as [H1|H1], (Rlt_dec r 1) as [H2|H2], (Rle_dec s 1) as [H3|H3]; try lra.
    + pose proof (P (1 - r) (1 - s) ltac:(lra) ltac:(lra)). lra.
    + pose proof (P (1 - r) 0 ltac:(lra) ltac:(lra)). assert (0 <= 3 * ((1 - r) * (1 - r)) * (s - 1)) by (apply Rmult_le_pos; [apply Rmult_le_pos; [lra|apply Rle_0_sqr]|lra]). lra.
    + assert (r = 1) by lra. subst r. assert (0 <= (1 - s) * (1 - s) * (1 - s)) by (apply Rmult_le_pos; [apply Rle_0_sqr|lra]). lra.
    + assert (r = 1) by lra. subst r. lra.
    + assert (0 <= (1 - s) * (1 - s) * (1 - s)) by (apply Rmult_le_pos; [apply Rle_0_sqr|lra]). lra.
Qed.

(** * The density as a textbook sum with its constant *)
Lemma as_textbook n data ws d M K N (prob : bool) f : (1 <= n)%nat -> built_kde n data ws d M None K -> is_inverse n M N -> kde_density K prob n None PNone = Ok f ->
  exists Z, 0 < Z /\ (forall base, is_tintN n (fun y => spec_prof d (quad n N y)) base Z) /\ 0 < lsum ws /\ 0 < mass prob ws
   /\ forall x, f x = mass prob ws / lsum ws / Z * spec_sum d n N (combine data ws) x.
Proof.
  intros Hn HB HN Hf. destruct (built_inv _ _ _ _ _ _ _ HB) as (_ & _ & _ & _ & _ & _ & _ & Hw & _).
  destruct (top_textbook n data ws d M K N Hn HB HN) as [Z [g [h [HZ [HI [Hg [Hh Hv]]]]]]]. exists Z. split; [exact HZ|]. split; [exact HI|]. split; [exact Hw|]. split; [destruct prob; cbn; lra|].
  intros x. destruct (Hv x) as [E1 E2]. destruct prob; cbn [mass].
  - unfold kde_pdf in Hh. rewrite Hf in Hh. injection Hh as <-. rewrite E2, E1. field. lra.
  - rewrite Hf in Hg. injection Hg as <-. rewrite E1. field. lra.
Qed.
Lemma inverse_sympd n M N : symmetric n M -> posdef n M -> is_inverse n M N -> symmetric n N /\ posdef n N.
Proof.
  intros Hs Hp HN. destruct (kernel_density_plain Gaussian n M [] (Some []) Hs Hp) as [N' [W [HN' [HW [HsN [Hinv _]]]]]]; [intros ? E; injection E as <-; reflexivity|].
  pose proof (inverse_unique n M N N' HN Hinv) as Ha. split.
  - intros i j Hi Hj. rewrite (Ha i j Hi Hj), (Ha j i Hj Hi). apply HsN; assumption.
  - intros x Hx. rewrite (quad_ext n N N' x x Ha (fun _ _ => eq_refl)). exact (chol_quad_pos n N' W x HW HsN Hx).
Qed.

(** * Slope along a line *)
Lemma quad_step n N x v p t : symmetric n N -> quad n N (psub (step x v t) p) = quad n N (psub x p) + 2 * t * inner n N (psub x p) v + t * t * quad n N v.
Proof.
  intros Hs. change (inner n N (psub x p) v) with (bil n N (psub x p) v). rewrite <- (quad_lin n N (psub x p) t v Hs). apply quad_ext; [intros i j _ _; reflexivity|]. intros i _. unfold psub, step, lin. ring.
Qed.
Lemma sum_slope d n N x v : symmetric n N -> forall wdata, (forall dw, In dw wdata -> smooth d (quad n N (psub x (fst dw)))) ->
  is_derive (fun t => spec_sum d n N wdata (step x v t)) 0 (- 2 * sumf (fun dw => snd dw * falling d (quad n N (psub x (fst dw))) * inner n N (psub x (fst dw)) v) wdata).
Proof.
  intros Hs. induction wdata as [|[p w] l IH]; intros Hm.
  - apply (is_derive_ext (fun _ => 0)); [reflexivity|]. replace (-2 * _) with 0; [apply (is_derive_const 0)|]. unfold sumf. cbn. ring.
  - specialize (IH (fun dw Hin => Hm dw (or_intror Hin))). pose proof (Hm (p, w) (or_introl eq_refl)) as Hp. cbn [fst] in Hp.
    set (q := fun t => quad n N (psub x p) + 2 * t * inner n N (psub x p) v + t * t * quad n N v).
    apply (is_derive_ext (fun t => w * spec_prof d (q t) + spec_sum d n N l (step x v t))).
    { intros t. unfold spec_sum. rewrite sumf_cons. cbn [fst snd]. rewrite quad_step by exact Hs. reflexivity. }
    rewrite sumf_cons. cbn [fst snd]. set (S := sumf _ l) in *. 
    replace (-2 * (w * falling d (quad n N (psub x p)) * inner n N (psub x p) v + S)) with (w * (2 * inner n N (psub x p) v * - falling d (quad n N (psub x p))) + -2 * S) by ring.
    apply (is_derive_plus (fun t => w * spec_prof d (q t))); [|exact IH]. apply (is_derive_scal (fun t => spec_prof d (q t))).
    assert (Eq : q 0 = quad n N (psub x p)) by (unfold q; ring).
    apply (is_derive_comp (spec_prof d) q 0 (- falling d (quad n N (psub x p))) (2 * inner n N (psub x p) v)).
    + rewrite Eq. apply prof_slope, Hp.
    + unfold q. auto_derive; [trivial|ring].
Qed.
Lemma slope n data ws d M K N (prob : bool) f : (1 <= n)%nat -> built_kde n data ws d M None K -> is_inverse n M N -> kde_density K prob n None PNone = Ok f ->
  exists Z, 0 < Z /\ (forall base, is_tintN n (fun y => spec_prof d (quad n N y)) base Z)
   /\ forall x v, (forall p, In p data -> smooth d (quad n N (psub x p))) ->
      is_derive (fun t => f (step x v t)) 0 (- 2 * (mass prob ws / lsum ws / Z) * sumf (fun dw => snd dw * falling d (quad n N (psub x (fst dw))) * inner n N (psub x (fst dw)) v) (combine data ws)).
Proof.
  intros Hn HB HN Hf. destruct (built_inv _ _ _ _ _ _ _ HB) as (_ & _ & _ & _ & _ & _ & _ & _ & _ & _ & Hs & Hp). destruct (inverse_sympd n M N Hs Hp HN) as [HsN _].
  destruct (as_textbook _ _ _ _ _ _ _ _ _ Hn HB HN Hf) as (Z & HZ & HI & Hw & Hm & Ef). exists Z. split; [exact HZ|]. split; [exact HI|]. intros x v Hx.
  apply (is_derive_ext (fun t => mass prob ws / lsum ws / Z * spec_sum d n N (combine data ws) (step x v t))); [intros t; symmetry; apply Ef|].
  set (c := mass prob ws / lsum ws / Z). set (S := sumf _ _). replace (-2 * c * S) with (c * (-2 * S)) by ring. apply (is_derive_scal (fun t => spec_sum d n N (combine data ws) (step x v t))).
  apply sum_slope; [exact HsN|]. intros [p w] Hin. apply Hx. exact (in_combine_l _ _ _ _ Hin).
Qed.

(** * Climbing *)
Lemma inner_sum n N u : forall (wdata : list (pt * R)) (g : pt * R -> R) x m, (forall i, (i < n)%nat -> sumf g wdata * m i = sumf (fun dw => g dw * fst dw i) wdata) ->
  sumf (fun dw => g dw * inner n N (psub x (fst dw)) u) wdata = sumf g wdata * inner n N (psub x m) u.
Proof.
  intros wdata g x m Hm. unfold inner. 
  transitivity (sumf (fun dw => rsum n (fun i => rsum n (fun j => g dw * psub x (fst dw) i * (N i j * u j)))) wdata).
  { apply sumf_ext. intros dw _. rewrite <- rsum_scal. apply rsum_ext. intros i _. rewrite <- rsum_scal. apply rsum_ext. intros j _. ring. }
  rewrite sumf_rsum_swap, <- rsum_scal. apply rsum_ext. intros i Hi. rewrite sumf_rsum_swap, <- rsum_scal. apply rsum_ext. intros j _. rewrite sumf_scal_r.
  replace (sumf (fun dw => g dw * psub x (fst dw) i) wdata) with (sumf g wdata * psub x m i); [ring|].
  unfold psub. rewrite Rmult_minus_distr_l, (Hm i Hi), <- sumf_scal_r, <- sumf_minus. apply sumf_ext. intros dw _. ring.
Qed.
Lemma climb_sum d n N data ws x m t : d <> Box -> symmetric n N -> (forall u, 0 <= quad n N u) -> (forall w, In w ws -> 0 <= w) ->
  (forall i, (i < n)%nat -> pull d n N (combine data ws) x * m i = pulled d n N (combine data ws) x i) ->
  spec_sum d n N (combine data ws) x + pull d n N (combine data ws) x * (2 * t - t * t) * quad n N (psub x m) <= spec_sum d n N (combine data ws) (step x (psub m x) t).
Proof.
  intros Hd Hs HP Hw Hm. set (g := fun dw : pt * R => snd dw * falling d (quad n N (psub x (fst dw)))).
  change (pull d n N (combine data ws) x) with (sumf g (combine data ws)) in *. change (forall i, (i < n)%nat -> sumf g (combine data ws) * m i = sumf (fun dw => g dw * fst dw i) (combine data ws)) in Hm.
  pose proof (inner_sum n N (psub m x) (combine data ws) g x m Hm) as E.
  assert (Ei : inner n N (psub x m) (psub m x) = - quad n N (psub x m)). { unfold inner, quad. rewrite <- rsum_opp. apply rsum_ext. intros i _. rewrite <- rsum_opp. apply rsum_ext. intros j _. unfold psub. ring. }
  assert (Eq : quad n N (psub m x) = quad n N (psub x m)). { unfold quad. apply rsum_ext. intros i _. apply rsum_ext. intros j _. unfold psub. ring. }
  rewrite Ei in E. 
  assert (H : sumf (fun dw => snd dw * spec_prof d (quad n N (psub x (fst dw))) + (- (2 * t) * (g dw * inner n N (psub x (fst dw)) (psub m x)) + - (t * t * quad n N (psub x m)) * g dw)) (combine data ws) <= spec_sum d n N (combine data ws) (step x (psub m x) t)).
  { unfold spec_sum. apply sumf_le. intros [p w] Hin. cbn [fst snd]. unfold g. cbn [fst snd]. rewrite quad_step by exact Hs. rewrite Eq.
    pose proof (prof_convex d (quad n N (psub x p)) (quad n N (psub (step x (psub m x) t) p)) Hd (HP _) (HP _)) as Hc. rewrite quad_step in Hc by exact Hs. rewrite Eq in Hc.
    pose proof (Rmult_le_compat_l w _ _ (Hw w (in_combine_r _ _ _ _ Hin)) Hc) as Hc2. eapply Rle_trans; [|exact Hc2]. right. ring. }
  rewrite !sumf_plus, !sumf_scal, E in H. unfold spec_sum at 1. lra.
Qed.
Lemma pull_nonneg d n N data ws x : (forall w, In w ws -> 0 <= w) -> 0 <= pull d n N (combine data ws) x.
Proof. intros Hw. apply sumf_nonneg. intros [p w] Hin. apply Rmult_le_pos; [exact (Hw w (in_combine_r _ _ _ _ Hin))|apply falling_nonneg]. Qed.
Lemma climb n data ws d M K N (prob : bool) f x m : (1 <= n)%nat -> built_kde n data ws d M None K -> is_inverse n M N -> kde_density K prob n None PNone = Ok f -> d <> Box ->
  (forall i, (i < n)%nat -> pull d n N (combine data ws) x * m i = pulled d n N (combine data ws) x i) ->
  forall t, 0 <= t <= 2 -> f x <= f (step x (psub m x) t).
Proof.
  intros Hn HB HN Hf Hd Hm t Ht. destruct (built_inv _ _ _ _ _ _ _ HB) as (_ & _ & _ & _ & _ & _ & Hnn & _ & _ & _ & Hs & Hp). destruct (inverse_sympd n M N Hs Hp HN) as [HsN HpN].
  destruct (as_textbook _ _ _ _ _ _ _ _ _ Hn HB HN Hf) as (Z & HZ & _ & Hw & Hmass & Ef). rewrite !Ef. apply Rmult_le_compat_l; [left; repeat apply Rdiv_lt_0_compat; assumption|].
  pose proof (climb_sum d n N data ws x m t Hd HsN (pd_nonneg n N HpN) Hnn Hm) as H. eapply Rle_trans; [|exact H].
  assert (0 <= pull d n N (combine data ws) x * (2 * t - t * t) * quad n N (psub x m)); [|lra]. apply Rmult_le_pos; [apply Rmult_le_pos; [apply pull_nonneg, Hnn|]|apply pd_nonneg, HpN].
  replace (2 * t - t * t) with (t * (2 - t)) by ring. apply Rmult_le_pos; lra.
Qed.
Lemma pull_zero d n N data ws x i : (forall w, In w ws -> 0 <= w) -> pull d n N (combine data ws) x = 0 -> pulled d n N (combine data ws) x i = 0.
Proof.
  intros Hw H. apply sumf_zero. intros [p w] Hin. cbn [fst snd]. replace (w * falling d (quad n N (psub x p))) with 0; [ring|].
  apply Rle_antisym; [apply Rmult_le_pos; [exact (Hw w (in_combine_r _ _ _ _ Hin))|apply falling_nonneg]|]. rewrite <- H.
  apply (sumf_ge_term (fun dw : pt * R => snd dw * falling d (quad n N (psub x (fst dw)))) (combine data ws) (p, w)); [|exact Hin].
  intros [q v] Hq. cbn [fst snd]. apply Rmult_le_pos; [exact (Hw v (in_combine_r _ _ _ _ Hq))|apply falling_nonneg].
Qed.
Lemma maximum n data ws d M K N (prob : bool) f x : (1 <= n)%nat -> built_kde n data ws d M None K -> is_inverse n M N -> kde_density K prob n None PNone = Ok f -> d <> Box ->
  local_max n f x -> forall i, (i < n)%nat -> pull d n N (combine data ws) x * x i = pulled d n N (combine data ws) x i.
Proof.
  intros Hn HB HN Hf Hd (delta & Hdl & Hmax) i Hi. destruct (built_inv _ _ _ _ _ _ _ HB) as (_ & _ & _ & _ & _ & _ & Hnn & _ & _ & _ & Hs & Hp). destruct (inverse_sympd n M N Hs Hp HN) as [HsN HpN].
  destruct (as_textbook _ _ _ _ _ _ _ _ _ Hn HB HN Hf) as (Z & HZ & _ & Hw & Hmass & Ef).
  set (G := pull d n N (combine data ws) x). assert (HG : 0 <= G) by (apply pull_nonneg, Hnn). destruct HG as [HG|HG]; [|rewrite (pull_zero d n N data ws x i Hnn (eq_sym HG)), <- HG; ring].
  set (m := fun i => pulled d n N (combine data ws) x i / G).
  assert (Hm : forall i, (i < n)%nat -> pull d n N (combine data ws) x * m i = pulled d n N (combine data ws) x i) by (intros k _; unfold m; fold G; field; lra).
  set (B := 1 + rsum n (fun k => Rabs (m k - x k))). assert (HB1 : 1 <= B) by (unfold B; pose proof (rsum_nonneg n (fun k => Rabs (m k - x k)) (fun k _ => Rabs_pos _)); lra).
  set (t := Rmin 1 (delta / B)). assert (Ht : 0 < t <= 1). { unfold t. split; [apply Rmin_glb_lt; [lra|apply Rdiv_lt_0_compat; lra]|apply Rmin_l]. }
  assert (Hnear : near n delta x (step x (psub m x) t)).
  { intros k Hk. unfold step, psub. replace (x k + t * (m k - x k) - x k) with (t * (m k - x k)) by ring. rewrite Rabs_mult, (Rabs_right t) by lra.
    assert (Hk1 : Rabs (m k - x k) < B). { unfold B. pose proof (rsum_ge_term n (fun k => Rabs (m k - x k)) k). cbv beta in H. specialize (H ltac:(intros; apply Rabs_pos) Hk). lra. }
    apply Rlt_le_trans with (t * B); [apply Rmult_lt_compat_l; lra|]. apply Rle_trans with (delta / B * B); [apply Rmult_le_compat_r; [lra|apply Rmin_r]|right; field; lra]. }
  specialize (Hmax _ Hnear). rewrite !Ef in Hmax. assert (Hc : 0 < mass prob ws / lsum ws / Z) by (repeat apply Rdiv_lt_0_compat; assumption).
  apply Rmult_le_reg_l in Hmax; [|exact Hc]. pose proof (climb_sum d n N data ws x m t Hd HsN (pd_nonneg n N HpN) Hnn Hm) as H. fold G in H.
  destruct (Classical_Prop.classic (exists k, (k < n)%nat /\ psub x m k <> 0)) as [Hne|Hne].
  - exfalso. pose proof (HpN _ Hne) as Hq. assert (0 < G * (2 * t - t * t) * quad n N (psub x m)); [|lra]. apply Rmult_lt_0_compat; [apply Rmult_lt_0_compat; [exact HG|]|exact Hq].
    replace (2 * t - t * t) with (t * (2 - t)) by ring. apply Rmult_lt_0_compat; lra.
  - assert (E : x i = m i). { apply Classical_Prop.NNPP. intros Hx. apply Hne. exists i. split; [exact Hi|unfold psub; lra]. } rewrite E. exact (Hm i Hi).
Qed.

(** * Examples and refutations *)
Lemma edge_refuted : exists K f, built_kde 1 [pt1 0] [1] Parabola ident None K /\ kde_density K true 1 None PNone = Ok f /\ ~ exists l, is_derive (fun t => f (pt1 t)) 1 l.
Proof.
  destruct (density_refl_exists_none 1 _ _ _ _ _ true (kx_built 0 Parabola) (le_n 1)) as [f Hf]. exists (kx 0 Parabola), f. split; [apply kx_built|]. split; [exact Hf|]. intros [l Hl].
  destruct (as_textbook _ _ _ _ _ _ _ _ _ (le_n 1) (kx_built 0 Parabola) (ident_inverse 1) Hf) as (Z & HZ & _ & _ & _ & Ef).
  assert (V : forall t, f (pt1 t) = / Z * spec_prof Parabola (t * t)).
  { intros t. rewrite Ef. unfold mass, spec_sum, sumf. cbn [combine map lsum fold_right fst snd]. rewrite quad_1. unfold psub, pt1, ident. cbn [Nat.eqb]. replace (1 * ((t - 0) * (t - 0))) with (t * t) by ring. field. lra. }
  assert (Hz : 0 < / Z) by (apply Rinv_0_lt_compat; exact HZ). apply is_derive_Reals in Hl.
  assert (Hlim : forall eps, 0 < eps -> exists delta : posreal, forall h, h <> 0 -> Rabs h < delta -> Rabs ((f (pt1 (1 + h)) - f (pt1 1)) / h - l) < eps) by exact Hl.
  assert (F1 : f (pt1 1) = 0). { rewrite V. unfold spec_prof. destruct (Rle_dec (1 * 1) 1); lra. }
  destruct (Hlim (/ Z / 2)) as [del Hdel]; [lra|]. pose proof (cond_pos del) as Hdp. set (h := Rmin (1 / 2) (del / 2)). assert (Hh : 0 < h /\ h <= 1 / 2 /\ h <= del / 2).
  { unfold h. split; [apply Rmin_glb_lt; lra|]. split; [apply Rmin_l|apply Rmin_r]. }
  pose proof (Hdel h ltac:(lra) ltac:(rewrite Rabs_right by lra; lra)) as D1. pose proof (Hdel (- h) ltac:(lra) ltac:(rewrite Rabs_left by lra; lra)) as D2. rewrite F1 in D1, D2.
  assert (E1 : f (pt1 (1 + h)) = 0). { rewrite V. unfold spec_prof. assert (1 < (1 + h) * (1 + h)) by (pose proof (Rmult_lt_0_compat h h); lra). destruct (Rle_dec ((1 + h) * (1 + h)) 1); lra. }
  assert (E2 : f (pt1 (1 + - h)) = / Z * (h * (2 - h))). { rewrite V. unfold spec_prof. assert (0 < h * (2 - h)) by (apply Rmult_lt_0_compat; lra). destruct (Rle_dec ((1 + - h) * (1 + - h)) 1) as [_|Hn]; [f_equal; ring|]. lra. }
  rewrite E1 in D1. rewrite E2 in D2. replace ((0 - 0) / h - l) with (- l) in D1 by (field; lra). replace ((/ Z * (h * (2 - h)) - 0) / - h - l) with (- (/ Z * (2 - h)) - l) in D2 by (field; lra).
  apply Rabs_def2 in D1. apply Rabs_def2 in D2. assert (/ Z * (3 / 2) <= / Z * (2 - h)) by (apply Rmult_le_compat_l; lra). lra.
Qed.
Lemma pull_pos n data ws d M K N (prob : bool) f x : (1 <= n)%nat -> built_kde n data ws d M None K -> is_inverse n M N -> kde_density K prob n None PNone = Ok f -> d <> Box ->
  0 < f x -> 0 < pull d n N (combine data ws) x.
Proof.
  intros Hn HB HN Hf Hd Hx. destruct (built_inv _ _ _ _ _ _ _ HB) as (_ & _ & _ & _ & _ & _ & Hnn & _). destruct (pull_nonneg d n N data ws x Hnn) as [H|H]; [exact H|exfalso].
  destruct (as_textbook _ _ _ _ _ _ _ _ _ Hn HB HN Hf) as (Z & HZ & _ & Hw & Hmass & Ef). rewrite Ef in Hx. replace (spec_sum d n N (combine data ws) x) with 0 in Hx; [lra|]. symmetry.
  apply sumf_zero. intros [p w] Hin. cbn [fst snd].
  assert (E : w * falling d (quad n N (psub x p)) = 0).
  { apply Rle_antisym; [|apply Rmult_le_pos; [exact (Hnn w (in_combine_r _ _ _ _ Hin))|apply falling_nonneg]]. rewrite H.
    apply (sumf_ge_term (fun dw : pt * R => snd dw * falling d (quad n N (psub x (fst dw)))) (combine data ws) (p, w)); [|exact Hin].
    intros [q v] Hq. cbn [fst snd]. apply Rmult_le_pos; [exact (Hnn v (in_combine_r _ _ _ _ Hq))|apply falling_nonneg]. }
  apply Rmult_integral in E. destruct E as [->|E]; [ring|]. replace (spec_prof d (quad n N (psub x p))) with 0; [ring|]. unfold falling in E. unfold spec_prof. destruct d; [| contradiction | |].
  - pose proof (exp_pos (- (quad n N (psub x p) / 2))). lra.
  - destruct (Rlt_dec _ _); [lra|]. destruct (Rle_dec _ _); lra.
  - destruct (Rlt_dec _ 1) as [Hl|Hl].
    + assert (H1 : 0 < (1 - quad n N (psub x p)) * (1 - quad n N (psub x p))) by (apply Rmult_lt_0_compat; lra). lra.
    + destruct (Rle_dec _ 1) as [Hr|Hr]; [|reflexivity]. replace (quad n N (psub x p)) with 1 by lra. ring.
Qed.
Lemma example_max : exists K f, built_kde 1 [p0; p1] [3; 1] Parabola ident None K /\ kde_density K true 1 None PNone = Ok f /\ local_max 1 f (pt1 (1 / 4)) /\ 0 < f (pt1 (1 / 4)).
Proof.
  destruct (unit_kde 1 [p0; p1] [3; 1] Parabola None) as [K [HK [HB _]]]; [discriminate|reflexivity|intros v [<-|[<-|[]]]; lra|exists 3; split; [left; reflexivity|lra]|].
  destruct (density_refl_exists_none 1 _ _ _ _ _ true HB (le_n 1)) as [f Hf]. exists K, f. split; [exact HB|]. split; [exact Hf|].
  destruct (as_textbook _ _ _ _ _ _ _ _ _ (le_n 1) HB (ident_inverse 1) Hf) as (Z & HZ & _ & Hw & Hmass & Ef).
  set (c := mass true [3; 1] / lsum [3; 1] / Z) in *. assert (Hc : 0 < c) by (unfold c; repeat apply Rdiv_lt_0_compat; assumption).
  assert (V : forall x : pt, 0 <= x O <= 1 -> f x = c * (13 / 4 - 4 * ((x O - 1 / 4) * (x O - 1 / 4)))).
  { intros x [H0 H1]. rewrite Ef. f_equal. unfold spec_sum, sumf. cbn [combine map lsum fold_right fst snd]. rewrite !quad_1. unfold psub, p0, p1, ident, spec_prof. cbn [Nat.eqb].
    assert (A1 : 1 * ((x O - 0) * (x O - 0)) <= 1) by (pose proof (Rmult_le_compat (x O) 1 (x O) 1); lra). assert (A2 : 1 * ((x O - 1) * (x O - 1)) <= 1) by (pose proof (Rmult_le_compat (1 - x O) 1 (1 - x O) 1); lra).
    destruct (Rle_dec _ _); [|lra]. destruct (Rle_dec _ _); [|lra]. field. }
  split.
  - exists (1 / 4). split; [lra|]. intros y Hy. specialize (Hy O (le_n 1)). unfold pt1 in Hy. apply Rabs_def2 in Hy. rewrite (V y) by lra. rewrite (V (pt1 (1 / 4))) by (unfold pt1; lra). apply Rmult_le_compat_l; [lra|]. unfold pt1.
    pose proof (Rle_0_sqr (y O - 1 / 4)) as H. unfold Rsqr in H. lra.
  - rewrite V by (unfold pt1; lra). apply Rmult_lt_0_compat; [exact Hc|]. unfold pt1. lra.
Qed.

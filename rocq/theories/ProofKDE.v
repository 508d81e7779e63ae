(** KDE-level facts: repeats (C05), integral (C08), weights (C22), neff (C23), bandwidth (C24, C25),
    and the witnesses for C12 and C27. *)
From Coquelicot Require Import Coquelicot.
From Coq Require Import Permutation FunctionalExtensionality String.
From Verif Require Import Base ModelLinAlg SpecLinAlg ProofLinAlg SpecIntegral ProofIntegral
  ProofWallis ProofGauss ModelKernels SpecKernels ProofKernels ModelKDE SpecKDE ProofDensity ProofAffine
  ProofReflect1 ProofMarginal.
Open Scope R_scope.
Notation length := List.length.

(* ---------------------------------------------------------------- identity kernel matrix *)
Lemma schur_ident n : agree n (schur n ident) ident.
Proof.
  intros i j Hi Hj. unfold schur. rewrite (ident_neq i n) by lia. rewrite ident_refl. field.
Qed.
Lemma mdet_ident n : mdet n ident = 1.
Proof.
  induction n as [|n IH]; cbn [mdet]; [reflexivity|].
  rewrite (mdet_ext n _ ident (schur_ident n)), IH, ident_refl. ring.
Qed.
Lemma ident_sym n : symmetric n ident.
Proof. intros i j _ _. unfold ident. rewrite Nat.eqb_sym. reflexivity. Qed.
Lemma quad_ident n x : quad n ident x = norm2 n x.
Proof.
  unfold quad, norm2. apply rsum_ext; intros i Hi.
  rewrite (rsum_ext n _ (fun j => x i * (ident i j * x j))) by (intros; ring).
  rewrite rsum_scal, rsum_ident_l by exact Hi. reflexivity.
Qed.
Lemma ident_posdef n : posdef n ident.
Proof.
  intros x [i [Hi Hx]]. rewrite quad_ident. unfold norm2.
  apply Rlt_le_trans with (x i * x i).
  - nra.
  - apply (rsum_ge_term n (fun k => x k * x k) i); [|exact Hi]. intros; apply Rle_0_sqr.
Qed.
Lemma ident_inverse n : is_inverse n ident ident.
Proof. intros i j Hi Hj. split; apply (rsum_ident_l n (fun k => ident k j) i Hi). Qed.

Lemma ident_white n N W x a : minv n ident = Some N -> chol n N = Some W ->
  white_dist2 n W x a = norm2 n (psub x a).
Proof.
  intros HN HW. pose proof (minv_sym n _ _ HN (ident_sym n)) as HsN.
  rewrite (white_dist2_quad n N W) by assumption.
  rewrite (quad_ext n N ident _ (psub x a)).
  - apply quad_ident.
  - apply (inverse_unique n ident); [apply minv_sound, HN|apply ident_inverse].
  - reflexivity.
Qed.

Lemma nball_vol_1 : nball_vol 1 = 2.
Proof.
  unfold nball_vol. cbn [Nat.add]. rewrite gammah_SS by lia. rewrite gammah_1.
  change (INR 1) with 1. replace (Rpower PI (1 / 2)) with (sqrt PI).
  - pose proof (sqrt_lt_R0 PI PI_RGT_0). field. lra.
  - replace (1 / 2) with (/ 2) by field. rewrite Rpower_sqrt by apply PI_RGT_0. reflexivity.
Qed.
Lemma nball_vol_2 : nball_vol 2 = PI.
Proof.
  unfold nball_vol. cbn [Nat.add]. rewrite gammah_SS by lia. rewrite gammah_2.
  change (INR 2) with 2. replace (2 / 2) with 1 by field. rewrite Rpower_1 by apply PI_RGT_0. field.
Qed.

(* ---------------------------------------------------------------- C12 witness *)
Definition origin : pt := fun _ => 0.

Lemma reflect_outside_witness :
  exists f, kernel_density (mkKernel Box 2 ident) 2 2 [origin] (Some [1])
      (Some [Some (Some 0, None); Some (Some 0, None)]) None = Ok f
    /\ 0 < f (fun i => match i with O => - (1 / 2) | _ => 0 end).
Proof.
  destruct (density_refl_ex Box 2 ident [origin] [1] [Some (Some 0, None); Some (Some 0, None)]
              (ident_sym 2) (ident_posdef 2) eq_refl eq_refl) as [f Hf].
  exists f. split; [exact Hf|].
  destruct (kernel_density_inv _ _ _ _ _ _ _ _ Hf)
    as [n' [M' [N [W [w' [[-> ->] [_ [HN [HW [-> [Hl ->]]]]]]]]]]]. cbn [k_ndim k_matrix k_dist] in *.
  set (x := fun i => match i with O => - (1 / 2) | _ => 0 end).
  apply Rdiv_lt_0_compat.
  2:{ rewrite mdet_ident, Rabs_R1, sqrt_1. cbn [dist_norm]. rewrite nball_vol_2. pose proof PI_RGT_0. lra. }
  cbn [reflect_loop combine]. unfold opt_term; cbn [fst snd].
  assert (Ho0 : outside (Some 0, None) (x O) = true).
  { unfold outside. cbn [fst snd]. destruct (Rltb_spec (x O) 0) as [|Hn]; [reflexivity|]. exfalso. apply Hn. unfold x. lra. }
  assert (Ho1 : outside (Some 0, None) (x 1%nat) = false).
  { unfold outside. cbn [fst snd]. destruct (Rltb_spec (x 1%nat) 0) as [Hn|]; [|reflexivity]. exfalso. unfold x in Hn. lra. }
  rewrite Ho0, Ho1.
  assert (E : eval_numba 2 W (prof Box) (mirror 1 0 [(origin, 1)]) x = 1).
  { unfold eval_numba, mirror, sumf. cbn [map fst snd lsum fold_right].
    rewrite (ident_white 2 N W) by assumption. unfold norm2, psub, mirror_pt, origin, x. cbn [rsum Nat.eqb prof].
    destruct (Rleb_spec (0 + (- (1 / 2) - 0) * (- (1 / 2) - 0) + (0 - (2 * 0 - 0)) * (0 - (2 * 0 - 0))) 1) as [|Hn].
    - ring.
    - exfalso. apply Hn. lra. }
  rewrite E. lra.
Qed.

(* ---------------------------------------------------------------- C27 witness *)
Lemma box_marginal_witness :
  exists f g l, kernel_density (mkKernel Box 2 ident) 2 2 [origin] (Some [1]) None None = Ok f
    /\ kernel_density (mkKernel Box 2 ident) 1 1 (map (select [1%nat]) [origin]) (Some [1]) None (Some [1%nat]) = Ok g
    /\ is_tintN 1 f origin l /\ l <> g (select [1%nat] origin).
Proof.
  destruct (kernel_density_plain Box 2 ident [origin] (Some [1]) (ident_sym 2) (ident_posdef 2))
    as [N [W [HN [HW [HsN [Hinv [Hd Hk]]]]]]].
  { intros w' E; injection E as <-; reflexivity. }
  destruct (kernel_density_params Box 2 ident [1%nat] (map (select [1%nat]) [origin]) [1]
              (ident_sym 2) (ident_posdef 2)) as [N' [W' [HN' [HW' [HsN' [Hinv' [Hd' Hk']]]]]]].
  { constructor; [intros []|constructor]. }
  { intros q [<-|[]]. lia. }
  { reflexivity. }
  change (length [1%nat]) with 1%nat in *.
  eexists. eexists. exists (2 / PI). split; [exact Hk|]. split; [exact Hk'|]. split.
  - apply tintN_1. rewrite mdet_ident, Rabs_R1, sqrt_1, Rmult_1_l. cbn [dist_norm]. rewrite nball_vol_2.
    apply tint_compact with (-1) 1.
    + lra.
    + assert (H : is_RInt (fun _ : R => 1 / PI) (-1) 1 ((1 - -1) * (1 / PI))) by exact (is_RInt_const (-1) 1 (1 / PI : R)).
      replace (2 / PI) with ((1 - -1) * (1 / PI)) by (unfold Rdiv; ring).
      apply is_RInt_ext with (2 := H). intros t Ht. rewrite Rmin_left, Rmax_right in Ht by lra.
      unfold eval_numba, sumf. cbn [combine map fst snd lsum fold_right].
      rewrite (ident_white 2 N W) by assumption. unfold norm2, psub, upd, origin. cbn [rsum Nat.eqb prof].
      destruct (Rleb_spec (0 + (t - 0) * (t - 0) + (0 - 0) * (0 - 0)) 1) as [|Hn].
      * match goal with |- ?a = ?b => change (@eq R a b) end. unfold Rdiv. ring.
      * exfalso. apply Hn. nra.
    + intros t Ht. unfold eval_numba, sumf. cbn [combine map fst snd lsum fold_right].
      rewrite (ident_white 2 N W) by assumption. unfold norm2, psub, upd, origin. cbn [rsum Nat.eqb prof].
      destruct (Rleb_spec (0 + (t - 0) * (t - 0) + (0 - 0) * (0 - 0)) 1) as [Hn|].
      * exfalso. nra.
      * match goal with |- ?a = ?b => change (@eq R a b) end. unfold Rdiv. ring.
    + intros t Ht. unfold eval_numba, sumf. cbn [combine map fst snd lsum fold_right].
      rewrite (ident_white 2 N W) by assumption. unfold norm2, psub, upd, origin. cbn [rsum Nat.eqb prof].
      destruct (Rleb_spec (0 + (t - 0) * (t - 0) + (0 - 0) * (0 - 0)) 1) as [Hn|].
      * exfalso. nra.
      * match goal with |- ?a = ?b => change (@eq R a b) end. unfold Rdiv. ring.
  - cbn [mdet]. unfold submat at 1. cbn [nth]. rewrite ident_refl, Rmult_1_r, Rabs_R1, sqrt_1, Rmult_1_l.
    cbn [dist_norm]. rewrite nball_vol_1. unfold eval_numba, sumf. cbn [combine map fst snd lsum fold_right].
    rewrite white_dist2_1. unfold select, origin. cbn [nth prof].
    match goal with |- context [Rleb ?a 1] => replace a with 0 by ring end.
    destruct (Rleb_spec 0 1) as [|Hn]; [|lra].
    intros E. 
    assert (H4 : PI = 4).
    { apply Rmult_eq_reg_r with (/ PI); [|apply Rinv_neq_0_compat, PI_neq0].
      rewrite Rinv_r by apply PI_neq0. unfold Rdiv in E. lra. }
    pose proof PI_4 as Hle. pose proof (PI_ineq 1) as [_ Hub]. unfold sum_f_R0, tg_alt, PI_tg in Hub. simpl in Hub. lra.
Qed.

(* ---------------------------------------------------------------- C05 *)
Lemma flat_repeat_sumf {A} (h : A -> R) (l : list A) (ks : list nat) : length ks = length l ->
  sumf h (flat_map (fun xk => repeat (fst xk) (snd xk)) (combine l ks))
  = sumf (fun xk => h (fst xk) * snd xk) (combine l (map INR ks)).
Proof.
  revert ks. induction l as [|a l IH]; intros [|k ks] H; try discriminate; [reflexivity|].
  cbn [combine flat_map map fst snd]. rewrite sumf_app, sumf_cons. cbn [fst snd].
  rewrite IH by (simpl in H; congruence). f_equal.
  clear. induction k as [|k IH]; [simpl; unfold sumf; simpl; ring|]. cbn [repeat]. rewrite sumf_cons, IH, S_INR. ring.
Qed.

(** Evaluation with repeat counts, in the metric and with the reflections of the call. *)
Lemma eval_numba_repeat n W k data ks x : length ks = length data ->
  eval_numba n W k (combine data (map INR ks)) x
  = (let rep := flat_map (fun dk => repeat (fst dk) (snd dk)) (combine data ks) in
     eval_numba n W k (combine rep (ones rep)) x).
Proof.
  intros H. cbv zeta. set (rep := flat_map _ _).
  unfold eval_numba.
  transitivity (sumf (fun p => k (white_dist2 n W x p)) rep).
  - unfold rep. rewrite flat_repeat_sumf by exact H. reflexivity.
  - clear. induction rep as [|a rep IH]; [reflexivity|]. unfold ones in *. cbn [map combine].
    rewrite !sumf_cons, IH. cbn [fst snd]. ring.
Qed.

Lemma mirror_repeat ii loc data ks : length ks = length data ->
  let rep := flat_map (fun dk => repeat (fst dk) (snd dk)) (combine data ks) in
  mirror ii loc (combine rep (ones rep)) =
  (let rep' := flat_map (fun dk => repeat (fst dk) (snd dk)) (combine (map (mirror_pt ii loc) data) ks) in
   combine rep' (ones rep')).
Proof.
  intros H. cbv zeta. unfold mirror, ones. rewrite <- combine_map_l. f_equal.
  - rewrite combine_map_l. generalize (combine data ks). intros l.
    induction l as [|[a k] l IH]; [reflexivity|]. cbn [flat_map map fst snd]. rewrite map_app, IH. f_equal.
    clear. induction k; cbn [repeat map]; [reflexivity|]. rewrite IHk. reflexivity.
  - rewrite combine_map_l. generalize (combine data ks). intros l.
    induction l as [|[a k] l IH]; [reflexivity|]. cbn [flat_map map fst snd]. rewrite !map_app, IH. f_equal.
    clear. induction k; cbn [repeat map]; [reflexivity|]. rewrite IHk. reflexivity.
Qed.

Lemma reflect_loop_ext ev wd wd' x refl : 
  (forall ii loc, ev (mirror ii loc wd) = ev (mirror ii loc wd')) -> forall ii acc,
  reflect_loop ev wd x ii refl acc = reflect_loop ev wd' x ii refl acc.
Proof.
  intros H. induction refl as [|[b|] refl IH]; intros ii acc; cbn [reflect_loop]; [reflexivity| |apply IH].
  assert (E : forall o, opt_term (fun loc => ev (mirror ii loc wd)) o = opt_term (fun loc => ev (mirror ii loc wd')) o).
  { intros [loc|]; cbn [opt_term]; auto. }
  rewrite !E. apply IH.
Qed.

Lemma kernel_density_repeat K pdim ddim data ks refl params : length ks = length data ->
  let rep := flat_map (fun dk => repeat (fst dk) (snd dk)) (combine data ks) in
  res_rel pt_rel (kernel_density K pdim ddim data (Some (map INR ks)) refl params)
                 (kernel_density K pdim ddim rep None refl params).
Proof.
  intros Hk rep. unfold kernel_density. apply res_rel_bind with (P := eq).
  { destruct params as [ps|]; [|reflexivity]. destruct (forallb _ ps); [|reflexivity].
    destruct (Nat.eqb pdim (length ps)); reflexivity. }
  intros [n M] ? <-. cbn [fst snd]. destruct (negb (Nat.eqb pdim ddim)); [reflexivity|].
  rewrite map_length, Hk, Nat.eqb_refl. cbn [bind].
  destruct (minv n M) as [N|]; [|reflexivity]. destruct (chol n N) as [W|]; [|reflexivity].
  change (map (fun _ : pt => 1) rep) with (ones rep).
  destruct refl as [r|].
  - destruct (negb (Nat.eqb (length r) ddim)); [reflexivity|]. intros x.
    rewrite eval_numba_repeat by exact Hk. cbv zeta. fold rep.
    rewrite (reflect_loop_ext _ (combine data (map INR ks)) (combine rep (ones rep))); [reflexivity|].
    intros ii loc. unfold rep. rewrite mirror_repeat by exact Hk. cbv zeta.
    unfold mirror. rewrite <- combine_map_l. apply eval_numba_repeat. rewrite map_length. exact Hk.
  - intros x. rewrite eval_numba_repeat by exact Hk. reflexivity.
Qed.

(* ---------------------------------------------------------------- C22 *)

Lemma check_weights_iff n l : 
  (valid_weights n l -> exists w, check_weights n (WArr l) = Ok (Some w) /\ map Fin w = l)
  /\ (~ valid_weights n l -> check_weights n (WArr l) = Err ValueError).
Proof.
  unfold check_weights.
  destruct (Nat.eqb_spec (length l) n) as [El|El]; cbn [negb].
  2:{ split; [intros [H _]; contradiction|reflexivity]. }
  destruct (existsb f_nonzero l) eqn:E1; cbn [negb].
  2:{ split; [|reflexivity]. intros [_ [_ [x [Hx Hne]]]]. exfalso.
      assert (Hf : f_nonzero x = false).
      { destruct (f_nonzero x) eqn:Ef; [|reflexivity].
        assert (existsb f_nonzero l = true) by (apply existsb_exists; eauto). congruence. }
      destruct x as [r| | |]; try discriminate Hf. cbn in Hf.
      destruct (Reqb_spec r 0) as [->|]; [apply Hne; reflexivity|discriminate]. }
  destruct (existsb (fun x => orb (negb (f_isfinite x)) (f_neg x)) l) eqn:E2.
  - split; [|reflexivity]. intros [_ [Hv _]]. exfalso.
    apply existsb_exists in E2. destruct E2 as [x [Hx Hb]]. destruct (Hv x Hx) as [r [-> Hr]].
    cbn in Hb. apply Rltb_true in Hb. lra.
  - assert (Hv : forall x, In x l -> valid_weight x).
    { intros x Hx. destruct (orb (negb (f_isfinite x)) (f_neg x)) eqn:Ex.
      - assert (existsb (fun x => orb (negb (f_isfinite x)) (f_neg x)) l = true)
          by (apply existsb_exists; exists x; auto). congruence.
      - destruct x as [r| | |]; try discriminate Ex. exists r. split; [reflexivity|].
        cbn in Ex. apply Rltb_false in Ex. exact Ex. }
    split.
    + intros _. exists (map f_val l). split; [reflexivity|]. rewrite map_map.
      rewrite <- (map_id l) at 2. apply map_ext_in. intros x Hx. destruct (Hv x Hx) as [r [-> _]]. reflexivity.
    + intros Hn. exfalso. apply Hn. split; [exact El|split; [exact Hv|]].
      apply existsb_exists in E1. destruct E1 as [x [Hx Hnz]]. exists x. split; [exact Hx|].
      intros ->. cbn in Hnz. destruct (Reqb_spec 0 0); [discriminate|lra].
Qed.

Lemma check_weights_list n l : valid_weights n l -> check_weights n (WList l) = Err TypeError.
Proof.
  intros [Hl [Hv [x [Hx Hne]]]]. unfold check_weights. rewrite Hl, Nat.eqb_refl. cbn [negb].
  assert (E : existsb f_nonzero l = true).
  { apply existsb_exists. exists x. split; [exact Hx|]. destruct x as [r| | |]; try reflexivity.
    cbn. destruct (Reqb_spec r 0) as [->|]; [contradiction Hne; reflexivity|reflexivity]. }
  rewrite E. reflexivity.
Qed.

(* ---------------------------------------------------------------- C23 *)
Lemma sumsq_cons a l : sumsq (a :: l) = a * a + sumsq l. Proof. reflexivity. Qed.
Lemma lsum_cons a l : lsum (a :: l) = a + lsum l. Proof. reflexivity. Qed.

Lemma cs_gap a l : sumf (fun x => (a - x) * (a - x)) l = INR (length l) * (a * a) - 2 * a * lsum l + sumsq l.
Proof.
  induction l as [|x l IH]; [simpl; unfold sumf, sumsq, sumf; simpl; ring|].
  rewrite sumf_cons, IH, lsum_cons, sumsq_cons. cbn [List.length]. rewrite S_INR. ring.
Qed.

Definition vgap (l : list R) : R := INR (length l) * sumsq l - lsum l * lsum l.
Lemma vgap_cons a l : vgap (a :: l) = vgap l + sumf (fun x => (a - x) * (a - x)) l.
Proof.
  unfold vgap. rewrite cs_gap, lsum_cons, sumsq_cons. cbn [List.length]. rewrite S_INR. ring.
Qed.
Lemma sumf_sq_nonneg a l : 0 <= sumf (fun x => (a - x) * (a - x)) l.
Proof. apply sumf_nonneg. intros; apply Rle_0_sqr. Qed.
Lemma vgap_nonneg l : 0 <= vgap l.
Proof.
  induction l as [|a l IH]; [unfold vgap; simpl; unfold sumsq, sumf; simpl; lra|].
  rewrite vgap_cons. pose proof (sumf_sq_nonneg a l). lra.
Qed.
Lemma vgap_zero l : vgap l = 0 <-> (forall x y, In x l -> In y l -> x = y).
Proof.
  induction l as [|a l IH].
  - split; [intros _ x y []|intros _; unfold vgap; simpl; unfold sumsq, sumf; simpl; ring].
  - rewrite vgap_cons. pose proof (sumf_sq_nonneg a l) as H1. pose proof (vgap_nonneg l) as H2. split.
    + intros E. assert (E1 : sumf (fun x => (a - x) * (a - x)) l = 0) by lra.
      assert (Ha : forall x, In x l -> x = a).
      { intros x Hx. assert ((a - x) * (a - x) <= 0).
        { rewrite <- E1. apply (sumf_ge_term (fun x => (a - x) * (a - x)) l x); [|exact Hx].
          intros; apply Rle_0_sqr. }
        nra. }
      assert (Hb : forall x, In x (a :: l) -> x = a) by (intros x [<-|Hx]; auto).
      intros x y Hx Hy. rewrite (Hb x Hx), (Hb y Hy). reflexivity.
    + intros Hall. assert (vgap l = 0) by (apply IH; intros; apply Hall; right; assumption).
      rewrite sumf_zero; [lra|]. intros x Hx. rewrite (Hall a x); [ring|left; reflexivity|right; exact Hx].
Qed.

Definition pgap (l : list R) : R := lsum l * lsum l - sumsq l.
Lemma pgap_cons a l : pgap (a :: l) = pgap l + 2 * (a * lsum l).
Proof. unfold pgap. rewrite lsum_cons, sumsq_cons. ring. Qed.
Lemma pgap_nonneg l : (forall x, In x l -> 0 <= x) -> 0 <= pgap l.
Proof.
  induction l as [|a l IH]; intros H; [unfold pgap; simpl; unfold sumsq, sumf; simpl; lra|].
  rewrite pgap_cons. pose proof (H a (or_introl eq_refl)).
  pose proof (lsum_nonneg l (fun x Hx => H x (or_intror Hx))).
  specialize (IH (fun x Hx => H x (or_intror Hx))). nra.
Qed.

Lemma lsum_zero_all l : (forall x, In x l -> 0 <= x) -> lsum l = 0 -> forall x, In x l -> x = 0.
Proof.
  induction l as [|a l IH]; intros H E x Hx; [contradiction|]. rewrite lsum_cons in E.
  pose proof (H a (or_introl eq_refl)). pose proof (lsum_nonneg l (fun x Hx => H x (or_intror Hx))).
  destruct Hx as [<-|Hx]; [lra|]. apply IH; auto; [intros; apply H; right; assumption|lra].
Qed.

(** number of non-zero entries *)
Lemma nnz_cons a l : nnz (a :: l) = ((if Reqb a 0 then 0 else 1) + nnz l)%nat.
Proof. unfold nnz. cbn [filter]. destruct (Reqb a 0); reflexivity. Qed.
Lemma nnz_0 l : nnz l = O <-> (forall x, In x l -> x = 0).
Proof.
  induction l as [|a l IH]; [split; [intros _ x []|reflexivity]|]. rewrite nnz_cons. 
  destruct (Reqb_spec a 0) as [->|Hn]; split; intros H.
  - intros x [<-|Hx]; [reflexivity|]. apply IH; [exact H|exact Hx].
  - apply IH. intros; apply H; right; assumption.
  - lia.
  - exfalso. apply Hn, H. left; reflexivity.
Qed.
Lemma lsum_zero_list l : (forall x, In x l -> x = 0) -> lsum l = 0.
Proof.
  induction l as [|a l IH]; intros H; [reflexivity|]. rewrite lsum_cons, (H a), IH; [ring| |left; reflexivity].
  intros; apply H; right; assumption.
Qed.
Lemma pgap_zero l : (forall x, In x l -> 0 <= x) -> (pgap l = 0 <-> (nnz l <= 1)%nat).
Proof.
  induction l as [|a l IH]; intros H.
  - split; [intros _; unfold nnz; simpl; lia|intros _; unfold pgap; simpl; unfold sumsq, sumf; simpl; ring].
  - assert (H' : forall x, In x l -> 0 <= x) by (intros; apply H; right; assumption).
    specialize (IH H'). rewrite pgap_cons, nnz_cons. pose proof (pgap_nonneg l H') as H1.
    pose proof (H a (or_introl eq_refl)) as Ha. pose proof (lsum_nonneg l H') as Hs.
    assert (Hprod : 0 <= a * lsum l) by (apply Rmult_le_pos; assumption).
    destruct (Reqb_spec a 0) as [->|Hn].
    + rewrite Rmult_0_l, Rmult_0_r, Rplus_0_r. exact IH.
    + split.
      * intros E. assert (E2 : a * lsum l = 0) by lra. apply Rmult_integral in E2.
        destruct E2 as [E2|E2]; [contradiction|].
        assert (nnz l = O) by (apply nnz_0; apply lsum_zero_all; assumption). lia.
      * intros E. assert (E0 : nnz l = O) by lia. pose proof (proj1 (nnz_0 l) E0) as Hz.
        rewrite (lsum_zero_list l Hz). rewrite (proj2 IH) by lia. ring.
Qed.

Lemma sumsq_pos l : (exists x, In x l /\ x <> 0) -> 0 < sumsq l.
Proof.
  intros [x [Hx Hn]]. apply Rlt_le_trans with (x * x); [nra|].
  apply (sumf_ge_term (fun x => x * x) l x); [intros; apply Rle_0_sqr|exact Hx].
Qed.

Lemma neff_bounds n w : length w = n -> (forall x, In x w -> 0 <= x) -> (exists x, In x w /\ x <> 0) ->
  1 <= neff_of n (Some w) <= INR n
  /\ (neff_of n (Some w) = INR n <-> forall x y, In x w -> In y w -> x = y)
  /\ (neff_of n (Some w) = 1 <-> nnz w = 1%nat).
Proof.
  intros Hl Hnn Hex. pose proof (sumsq_pos w Hex) as Hq. unfold neff_of.
  pose proof (vgap_nonneg w) as Hv. pose proof (pgap_nonneg w Hnn) as Hp. unfold vgap in Hv. unfold pgap in Hp.
  assert (E : lsum w ^ 2 = lsum w * lsum w) by ring. rewrite E.
  assert (Hr : lsum w * lsum w / sumsq w * sumsq w = lsum w * lsum w) by (field; lra).
  set (r := lsum w * lsum w / sumsq w) in *. rewrite Hl in Hv.
  split; [split; nra|]. split.
  - rewrite <- vgap_zero. unfold vgap. rewrite Hl. split; intros E'; [rewrite E' in Hr; lra|].
    apply Rmult_eq_reg_r with (sumsq w); lra.
  - assert (H1 : nnz w = 1%nat <-> (nnz w <= 1)%nat).
    { split; [lia|]. intros H. destruct (nnz w) as [|k] eqn:En; [|lia]. exfalso.
      destruct Hex as [x [Hx Hne]]. apply Hne. apply (proj1 (nnz_0 w) En x Hx). }
    rewrite H1, <- (pgap_zero w Hnn). unfold pgap. split; intros E'; [rewrite E' in Hr; lra|].
    apply Rmult_eq_reg_r with (sumsq w); lra.
Qed.

(* ---------------------------------------------------------------- C24 *)
Lemma pow_neg_decr a b e : 0 < e -> 0 < a < b -> Rpower b (- e) < Rpower a (- e).
Proof.
  intros He [Ha Hb]. unfold Rpower. apply exp_increasing.
  assert (ln a < ln b) by (apply ln_increasing; lra). nra.
Qed.
Lemma pow_neg_small e eps : 0 < e -> 0 < eps -> exists N0, 0 < N0 /\ forall x, N0 <= x -> Rpower x (- e) < eps.
Proof.
  intros He Heps. exists (Rpower eps (- / e) + 1). 
  assert (Hp : 0 < Rpower eps (- / e)) by (unfold Rpower; apply exp_pos).
  split; [lra|]. intros x Hx.
  apply Rlt_le_trans with (Rpower (Rpower eps (- / e)) (- e)).
  - apply pow_neg_decr; [exact He|split; [exact Hp|lra]].
  - rewrite Rpower_mult. replace (- / e * - e) with 1 by (field; lra). rewrite Rpower_1 by exact Heps. lra.
Qed.
Lemma scott_exp_pos ndim : 0 < 1 / (INR ndim + 4).
Proof. pose proof (pos_INR ndim). apply Rdiv_lt_0_compat; lra. Qed.

Lemma scott_facts ndim :
  (forall x, 0 < scott x ndim)
  /\ (forall x y, 0 < x < y -> scott y ndim < scott x ndim)
  /\ (forall eps, 0 < eps -> exists N0, 0 < N0 /\ forall x, N0 <= x -> scott x ndim < eps)
  /\ (forall x, 1 <= x -> scott x ndim <= 1).
Proof.
  pose proof (scott_exp_pos ndim) as He. repeat split.
  - intros. unfold scott. apply Rpower_half_pos.
  - intros. apply pow_neg_decr; assumption.
  - intros. apply pow_neg_small; assumption.
  - intros x Hx. unfold scott. destruct (Req_dec x 1) as [->|Hne].
    + unfold Rpower. rewrite ln_1, Rmult_0_r, exp_0. lra.
    + left. apply Rlt_le_trans with (Rpower 1 (- (1 / (INR ndim + 4)))).
      * apply pow_neg_decr; [exact He|lra].
      * unfold Rpower. rewrite ln_1, Rmult_0_r, exp_0. lra.
Qed.
Lemma silverman_facts ndim :
  (forall x, 0 < silverman x ndim)
  /\ (forall x y, 0 < x < y -> silverman y ndim < silverman x ndim)
  /\ (forall eps, 0 < eps -> exists N0, 0 < N0 /\ forall x, N0 <= x -> silverman x ndim < eps).
Proof.
  pose proof (scott_exp_pos ndim) as He. pose proof (pos_INR ndim) as Hn. repeat split.
  - intros. unfold silverman. apply Rpower_half_pos.
  - intros x y Hxy. unfold silverman. apply pow_neg_decr; [exact He|]. split; [|]; nra.
  - intros eps Heps. destruct (pow_neg_small _ eps He Heps) as [N0 [HN0 HN]].
    exists (N0 * 4). split; [lra|]. intros x Hx. apply HN. nra.
Qed.

(* ---------------------------------------------------------------- C08 / C01 at the KDE level *)
Lemma kde_density_plain K d M prob :
  kd_kernel K = Some (mkKernel d (kd_ndim K) M) -> kd_reflect K = None ->
  kde_density K prob (kd_ndim K) None PNone =
  (do f <- kernel_density (mkKernel d (kd_ndim K) M) (kd_ndim K) (kd_ndim K) (kd_data K) (kd_weights K) None None ;;
   Ok (if prob then fun x => f x / (match kd_weights K with None => INR (length (kd_data K)) | Some w => lsum w end) else f)).
Proof. intros Hk Hr. unfold kde_density, resolve_params. cbn [bind]. rewrite Hr, Hk. reflexivity. Qed.

Lemma kernel_density_ones K pdim ddim data refl params :
  kernel_density K pdim ddim data None refl params = kernel_density K pdim ddim data (Some (ones data)) refl params.
Proof.
  unfold kernel_density. f_equal. extensionality sel. destruct (negb (Nat.eqb pdim ddim)); [reflexivity|].
  unfold ones. rewrite map_length, Nat.eqb_refl. reflexivity.
Qed.
Lemma lsum_ones {A} (l : list A) : lsum (ones l) = INR (length l).
Proof.
  unfold ones. induction l as [|a l IH]; [reflexivity|]. cbn [map List.length]. rewrite lsum_cons, IH, S_INR. ring.
Qed.

(** What a successful construction guarantees. *)
Lemma kde_init_inv n data w b diag resc d cova neffa refl K :
  kde_init n data w b diag resc d cova neffa refl = Ok K ->
  exists bw, kd_ndim K = n /\ kd_data K = data /\ data <> [] /\ kd_reflect K = refl
    /\ check_weights (length data) w = Ok (kd_weights K)
    /\ kd_neff K = match neffa with Some x => x | None => neff_of (length data) (kd_weights K) end
    /\ set_bandwidth (kd_neff K) n diag b resc = Ok bw
    /\ kd_kernel K = match (match cova with Some c => Some c | None => np_cov (wdata_of data (kd_weights K)) end) with
                     | None => None | Some c => Some (mkKernel d n (kernel_matrix c bw)) end.
Proof.
  unfold kde_init. destruct (Nat.eqb_spec (length data) 0) as [|Hd]; [discriminate|].
  destruct (check_weights (length data) w) as [ow|] eqn:Ew; [|discriminate]. cbn [bind].
  destruct (set_bandwidth _ n diag b resc) as [bw|] eqn:Eb; [|discriminate]. cbn [bind].
  intros H. injection H as <-. exists bw. cbn [kd_ndim kd_data kd_weights kd_neff kd_kernel kd_reflect].
  repeat split; auto. intros ->. apply Hd. reflexivity.
Qed.

Lemma kde_integral n data w b diag resc d cova neffa K M base :
  (1 <= n)%nat ->
  kde_init n data w b diag resc d cova neffa None = Ok K ->
  kd_kernel K = Some (mkKernel d n M) -> symmetric n M -> posdef n M ->
  exists f g, kde_density K false n None PNone = Ok f /\ kde_pdf K n None PNone = Ok g
    /\ is_tintN n f base (match kd_weights K with Some l => lsum l | None => INR (length data) end)
    /\ is_tintN n g base 1.
Proof.
  intros Hn HK Hker Hs Hp. destruct (kde_init_inv _ _ _ _ _ _ _ _ _ _ _ HK)
    as [bw [En [Ed [Hne [Er [Ew [_ [_ _]]]]]]]].
  pose proof (check_weights_pos _ _ _ Ew) as Hw.
  set (wl := match kd_weights K with Some l => l | None => ones data end).
  assert (Hwl : length wl = length data /\ 0 < lsum wl
     /\ lsum wl = match kd_weights K with Some l => lsum l | None => INR (length data) end).
  { unfold wl. destruct (kd_weights K) as [l|].
    - destruct Hw as [H1 [H2 H3]]. repeat split; auto. apply lsum_pos_of; assumption.
    - repeat split; [unfold ones; apply map_length| |apply lsum_ones].
      rewrite lsum_ones. apply lt_0_INR. destruct data; [contradiction Hne; reflexivity|simpl; lia]. }
  destruct Hwl as [Hl [Hpos Hsum]].
  destruct (density_integral d n M data wl base Hn Hs Hp Hl) as [f [Hf Hi]].
  assert (Hkd : kernel_density (mkKernel d n M) n n data (kd_weights K) None None = Ok f).
  { unfold wl in Hf. destruct (kd_weights K); [exact Hf|]. rewrite kernel_density_ones. exact Hf. }
  rewrite <- En in *.
  pose proof (kde_density_plain K d M false Hker Er) as P1.
  pose proof (kde_density_plain K d M true Hker Er) as P2.
  rewrite Ed, Hkd in P1, P2. cbn [bind] in P1, P2.
  eexists. eexists. split; [exact P1|split; [exact P2|]].
  rewrite <- Hsum. split; [exact Hi|].
  apply (tintN_scal _ (/ lsum wl)) in Hi. rewrite Rinv_l in Hi by lra.
  apply tintN_ext with (2 := Hi). intros x. unfold Rdiv. apply Rmult_comm.
Qed.

(* ---------------------------------------------------------------- C05: automatic bandwidth *)
Definition p0 : pt := fun _ => 0.
Definition p1 : pt := fun _ => 1.

Lemma Rpower_le_1_bounds : Rpower (9/5) (- (1 / 5)) * Rpower (9/5) (- (1 / 5)) >= 5 / 9.
Proof.
  rewrite <- Rpower_plus. apply Rle_ge.
  replace (5 / 9) with (Rpower (9 / 5) (Ropp 1)).
  - left. apply Rpower_lt; lra.
  - rewrite Rpower_Ropp, Rpower_1 by lra. field.
Qed.
Lemma Rpower_3_bounds : Rpower 3 (- (1 / 5)) * Rpower 3 (- (1 / 5)) < 3 / 4.
Proof.
  rewrite <- Rpower_plus. set (y := Rpower 3 (- (1 / 5) + - (1 / 5))).
  assert (Hy : y ^ 5 = / 9).
  { unfold y. rewrite <- Rpower_pow by apply Rpower_half_pos. rewrite Rpower_mult.
    replace ((- (1 / 5) + - (1 / 5)) * INR 5) with (- INR 2) by (simpl; field).
    rewrite Rpower_Ropp, Rpower_pow by lra. f_equal. ring. }
  assert (Hpos : 0 < y) by apply Rpower_half_pos.
  destruct (Rlt_le_dec y (3 / 4)) as [|Hge]; [assumption|exfalso].
  assert ((3 / 4) ^ 5 <= y ^ 5) by (apply pow_incr; lra). rewrite Hy in H. lra.
Qed.

Lemma repeats_default_witness :
  exists K K' f g,
    kde_init 1 [p0; p1] (WArr [Fin 2; Fin 1]) BwNone false None Box None None None = Ok K
    /\ kde_init 1 [p0; p0; p1] WNone BwNone false None Box None None None = Ok K'
    /\ kde_pdf K 1 None PNone = Ok f /\ kde_pdf K' 1 None PNone = Ok g
    /\ f (pt1 (1 / 2)) <> g (pt1 (1 / 2)).
Proof.
  assert (Hcw : check_weights 2 (WArr [Fin 2; Fin 1]) = Ok (Some [2; 1])).
  { destruct (check_weights_iff 2 [Fin 2; Fin 1]) as [H _]. destruct H as [w [Hw E]].
    - split; [reflexivity|split].
      + intros x [<-|[<-|[]]]; eexists; split; try reflexivity; lra.
      + exists (Fin 2). split; [left; reflexivity|]. intros E. injection E as E. lra.
    - rewrite Hw. do 2 f_equal. destruct w as [|a [|c [|e w]]]; try discriminate E. injection E as -> ->. reflexivity. }
  (* covariance and neff of the weighted data *)
  assert (Hc1 : np_cov (wdata_of [p0; p1] (Some [2; 1])) = Some (fun _ _ => 1 / 2)).
  { unfold np_cov, wdata_of, wlist, cov_fact, wmean, sumf. cbn [combine map fst snd lsum fold_right].
    destruct (Rleb_spec (2 + (1 + 0) - (2 * 2 + (1 * 1 + 0)) / (2 + (1 + 0))) 0) as [Hn|_]; [exfalso; lra|].
    f_equal. extensionality i. extensionality j. unfold p0, p1. field. }
  assert (Hc2 : np_cov (wdata_of [p0; p0; p1] None) = Some (fun _ _ => 1 / 3)).
  { unfold np_cov, wdata_of, wlist, cov_fact, wmean, sumf. cbn [combine map fst snd lsum fold_right].
    destruct (Rleb_spec (1 + (1 + (1 + 0)) - (1 * 1 + (1 * 1 + (1 * 1 + 0))) / (1 + (1 + (1 + 0)))) 0) as [Hn|_]; [exfalso; lra|].
    f_equal. extensionality i. extensionality j. unfold p0, p1. field. }
  set (s1 := Rpower (9 / 5) (- (1 / 5))). set (s2 := Rpower 3 (- (1 / 5))).
  assert (Hs1 : scott (neff_of 2 (Some [2; 1])) 1 = s1).
  { unfold scott, neff_of, sumsq, sumf. cbn [map lsum fold_right INR].
    replace ((2 + (1 + 0)) ^ 2 / (2 * 2 + (1 * 1 + 0))) with (9 / 5) by field.
    replace (1 + 4) with 5 by ring. reflexivity. }
  assert (Hs2 : scott (neff_of 3 None) 1 = s2).
  { unfold scott, neff_of. cbn [INR]. replace (1 + 1 + 1) with 3 by ring. replace (1 + 4) with 5 by ring. reflexivity. }
  set (M1 := kernel_matrix (fun _ _ => 1 / 2) (fun _ _ => s1)).
  set (M2 := kernel_matrix (fun _ _ => 1 / 3) (fun _ _ => s2)).
  pose proof Rpower_le_1_bounds as B1. fold s1 in B1. pose proof Rpower_3_bounds as B2. fold s2 in B2.
  assert (P1 : 0 < s1) by apply Rpower_half_pos. assert (P2 : 0 < s2) by apply Rpower_half_pos.
  assert (HM1 : 1 / 4 <= M1 O O) by (unfold M1, kernel_matrix; lra).
  assert (HM2 : M2 O O < 1 / 4) by (unfold M2, kernel_matrix; lra).
  assert (HM2p : 0 < M2 O O) by (unfold M2, kernel_matrix; nra).
  assert (HI1 : kde_init 1 [p0; p1] (WArr [Fin 2; Fin 1]) BwNone false None Box None None None
            = Ok (mkKDE 1 [p0; p1] (Some [2; 1]) (neff_of 2 (Some [2; 1])) (Some (mkKernel Box 1 M1)) None)).
  { unfold kde_init. cbn [Nat.eqb List.length]. rewrite Hcw. cbn [bind]. rewrite Hc1.
    unfold set_bandwidth, compute_bandwidth. cbn [String.eqb Ascii.eqb Bool.eqb bind]. rewrite Hs1. reflexivity. }
  assert (HI2 : kde_init 1 [p0; p0; p1] WNone BwNone false None Box None None None
            = Ok (mkKDE 1 [p0; p0; p1] None (neff_of 3 None) (Some (mkKernel Box 1 M2)) None)).
  { unfold kde_init. cbn [Nat.eqb List.length]. cbn [check_weights bind]. rewrite Hc2.
    unfold set_bandwidth, compute_bandwidth. cbn [String.eqb Ascii.eqb Bool.eqb bind]. rewrite Hs2. reflexivity. }
  destruct (posdef_1 M1 ltac:(lra)) as [S1 D1]. destruct (posdef_1 M2 HM2p) as [S2 D2].
  destruct (density_textbook Box 1 M1 (fun _ _ => / M1 O O) [p0; p1] [2; 1] ltac:(lia) S1 D1) as [Z1 [f1 [HZ1 [_ [Hf1 Ef1]]]]].
  { intros i j Hi Hj. replace i with O by lia. replace j with O by lia. rewrite ident_refl. cbn [rsum]. split; field; lra. }
  { reflexivity. }
  destruct (density_integral Box 1 M2 [p0; p0; p1] (ones [p0; p0; p1]) (pt1 0) ltac:(lia) S2 D2 eq_refl) as [g1 [Hg1 _]].
  exists (mkKDE 1 [p0; p1] (Some [2; 1]) (neff_of 2 (Some [2; 1])) (Some (mkKernel Box 1 M1)) None).
  exists (mkKDE 1 [p0; p0; p1] None (neff_of 3 None) (Some (mkKernel Box 1 M2)) None).
  exists (fun x => f1 x / lsum [2; 1]), (fun x => g1 x / INR 3).
  split; [exact HI1|split; [exact HI2|]].
  split; [|split].
  - unfold kde_pdf. match goal with |- kde_density ?K _ _ _ _ = _ => pose proof (kde_density_plain K Box M1 true eq_refl eq_refl) as Q end.
    cbn [kd_ndim kd_data kd_weights] in Q. rewrite Q.
    rewrite Hf1. reflexivity.
  - unfold kde_pdf. match goal with |- kde_density ?K _ _ _ _ = _ => pose proof (kde_density_plain K Box M2 true eq_refl eq_refl) as Q end.
    cbn [kd_ndim kd_data kd_weights] in Q. rewrite Q.
    rewrite kernel_density_ones, Hg1. reflexivity.
  - assert (G0 : g1 (pt1 (1 / 2)) = 0).
    { apply (density_1_zero_far Box M2 [p0; p0; p1] (ones [p0; p0; p1]) g1 (1 / 2) HM2p eq_refl Hg1).
      assert (Hq : sqrt (M2 O O) < 1 / 2).
      { rewrite <- (sqrt_square (1 / 2)) by lra. apply sqrt_lt_1; lra. }
      intros p [<-|[<-|[<-|[]]]]; unfold p0, p1; unfold Rabs; destruct (Rcase_abs _); lra. }
    assert (F0 : 0 < f1 (pt1 (1 / 2))).
    { rewrite Ef1. apply Rdiv_lt_0_compat; [|exact HZ1].
      unfold spec_sum, sumf. cbn [combine map fst snd lsum fold_right].
      assert (Hq : forall p, (p = p0 \/ p = p1) -> spec_prof Box (quad 1 (fun _ _ => / M1 O O) (psub (pt1 (1 / 2)) p)) = 1).
      { intros p Hp. cbn [spec_prof]. destruct (Rle_dec _ 1) as [|Hn]; [reflexivity|exfalso; apply Hn].
        unfold quad, psub, pt1. cbn [rsum].
        assert (E : (1 / 2 - p O) * (1 / 2 - p O) = 1 / 4) by (destruct Hp as [->| ->]; unfold p0, p1; field).
        replace (0 + (0 + (1 / 2 - p O) * / M1 O O * (1 / 2 - p O))) with ((1 / 2 - p O) * (1 / 2 - p O) * / M1 O O) by ring.
        rewrite E. apply Rmult_le_reg_r with (M1 O O); [lra|]. rewrite Rmult_assoc, Rinv_l by lra. lra. }
      rewrite !Hq by auto. lra. }
    rewrite G0. unfold Rdiv. rewrite Rmult_0_l. intros E.
    assert (0 < f1 (pt1 (1 / 2)) * / lsum [2; 1]); [|lra].
    apply Rmult_lt_0_compat; [exact F0|]. apply Rinv_0_lt_compat. cbn [lsum fold_right]. lra.
Qed.

From Coquelicot Require Import Coquelicot.
From Verif Require Import Base ModelLinAlg SpecLinAlg ProofLinAlg SpecIntegral ProofIntegral
  ModelKernels SpecKernels ProofKernels ModelKDE SpecKDE ProofKDE ProofDensity SpecMoments ProofMoments ProofReflect1 ProofTop2 ProofTop3 ProofBandwidth SpecWall.
Open Scope R_scope.
Notation length := List.length.

(* ---------------------------------------------------------------- halves of improper integrals *)
Lemma Rplus_diff (a b y : R) : a = b + y -> y = a + - b.
Proof. intros ->. ring. Qed.
Lemma half_ex h l p : is_tint h l -> exists u, is_tint (fun t => if Rltb t p then 0 else h t) u.
Proof.
  intros H.
  assert (HR : forall b, ex_RInt h p b).
  { intros b. destruct (Rle_lt_dec p b) as [L|L].
    - destruct (tint_ex_RInt h l p b H L) as [y Hy]. exists y. exact Hy.
    - apply ex_RInt_swap. destruct (tint_ex_RInt h l b p H ltac:(lra)) as [y Hy]. exists y. exact Hy. }
  assert (HC : exists u, filterlim (fun b => RInt h p b) (Rbar_locally p_infty) (locally u)).
  { apply (proj1 (filterlim_locally_cauchy (F := Rbar_locally p_infty) (fun b => RInt h p b))). intros [eps He].
    destruct (tint_tails h l H eps He) as (L & HL & _ & Ht & _).
    exists (fun b => L < b). split; [exists L; intros; assumption|]. intros a b Ha Hb.
    destruct (Ht a b Ha Hb) as (y & Hy & E). unfold ball; simpl; unfold AbsRing_ball, abs, minus, plus, opp; simpl.
    replace (RInt h p b + - RInt h p a) with y; [exact E|].
    pose proof (is_RInt_Chasles _ _ _ _ _ _ (RInt_correct _ _ _ (HR a)) Hy) as G. apply is_RInt_unique in G.
    assert (G' : RInt h p b = RInt h p a + y :> R) by exact G. apply (Rplus_diff _ _ _ G'). }
  destruct HC as [u Hu]. exists u. apply tint_iff. intros eps He.
  destruct (Hu (fun y => Rabs (y - u) < eps)) as [L HL]. { exists (mkposreal eps He). intros y Hy. exact Hy. }
  exists (Rabs L + Rabs p + 1). intros a b Ha Hb.
  pose proof (Rle_abs L). pose proof (Rabs_pos L). pose proof (Rle_abs p). pose proof (Rle_abs (- p)) as Hp. rewrite Rabs_Ropp in Hp.
  exists (0 + RInt h p b). split; [|rewrite Rplus_0_l; apply HL; lra].
  apply (is_RInt_Chasles (V := R_NormedModule) _ a p b).
  - apply is_RInt_ext with (fun _ => 0); [|apply is_RInt_zero]. intros x Hx. rewrite Rmin_left, Rmax_right in Hx by lra. destruct (Rltb_spec x p); [reflexivity|lra].
  - apply is_RInt_ext with h; [|exact (RInt_correct (V := R_CompleteNormedModule) h p b (HR b))]. intros x Hx. rewrite Rmin_left, Rmax_right in Hx by lra. destruct (Rltb_spec x p); [lra|reflexivity].
Qed.

(* ---------------------------------------------------------------- folding *)
Definition out (low : bool) (v t : R) : bool := if low then Rltb t v else Rltb v t.
Definition foldw (low : bool) (v : R) (h : R -> R) (t : R) : R := if out low v t then 0 else h t + h (2 * v - t).

Lemma foldw_tint low v h l : is_tint h l -> is_tint (foldw low v h) l.
Proof. intros H. destruct low; [exact (fold_lower h l v H)|exact (fold_upper h l v H)]. Qed.

Lemma foldw_sym low v h phi l : (forall t, phi (2 * v - t) = phi t) -> is_tint (fun t => phi t * h t) l -> is_tint (fun t => phi t * foldw low v h t) l.
Proof.
  intros Hp H. apply tint_ext with (2 := foldw_tint low v _ l H). intros t. unfold foldw. destruct (out low v t); [ring|]. rewrite Hp. ring.
Qed.

Lemma foldw_nonneg low v h : (forall t, 0 <= h t) -> forall t, 0 <= foldw low v h t.
Proof. intros H t. unfold foldw. destruct (out low v t); [lra|]. pose proof (H t). pose proof (H (2 * v - t)). lra. Qed.

(** Mean distance from the boundary: the two halves [A] and [B]. *)
Lemma abs_moment h v T : (forall t, 0 <= h t) -> is_tint (fun t => (t - v) * h t) T ->
  exists A B, 0 <= A /\ 0 <= B /\ T = A - B /\ is_tint (fun t => Rabs (t - v) * h t) (A + B)
    /\ is_tint (fun t => if Rltb t v then 0 else (t - v) * h t) A /\ is_tint (fun t => if Rltb t v then (v - t) * h t else 0) B.
Proof.
  intros Hn H. destruct (half_ex _ T v H) as [A HA].
  assert (HB : is_tint (fun t => if Rltb t v then (v - t) * h t else 0) (A + -1 * T)).
  { apply tint_ext with (2 := tint_plus _ _ _ _ HA (tint_scal (-1) _ _ H)). intros t. cbv beta. destruct (Rltb t v); ring. }
  exists A, (A + -1 * T).
  split. { refine (tint_nonneg _ A _ HA). intros t. cbv beta. destruct (Rltb_spec t v); [lra|]. apply Rmult_le_pos; [lra|apply Hn]. }
  split. { refine (tint_nonneg _ (A + -1 * T) _ HB). intros t. cbv beta. destruct (Rltb_spec t v); [|lra]. apply Rmult_le_pos; [lra|apply Hn]. }
  split; [ring|]. split; [|split; [exact HA|exact HB]].
  apply tint_ext with (2 := tint_plus _ _ _ _ HA HB). intros t. cbv beta. destruct (Rltb_spec t v); [rewrite Rabs_left by lra|rewrite Rabs_right by lra]; ring.
Qed.

Lemma foldw_abs (low : bool) (v : R) h t : (if low then t - v else v - t) * foldw low v h t = Rabs (t - v) * foldw low v h t.
Proof.
  unfold foldw, out. destruct low.
  - destruct (Rltb_spec t v); [ring|]. rewrite Rabs_right by lra. reflexivity.
  - destruct (Rltb_spec v t); [ring|]. rewrite Rabs_minus_sym, Rabs_right by lra. reflexivity.
Qed.

(** The mean after folding. *)
Lemma foldw_mean (low : bool) (v : R) h W T : (forall t, 0 <= h t) -> is_tint h W -> is_tint (fun t => (t - v) * h t) T ->
  exists A B, 0 <= A /\ 0 <= B /\ T = A - B /\ is_tint (fun t => t * foldw low v h t) (W * v + (if low then 1 else -1) * (A + B))
    /\ is_tint (fun t => if Rltb t v then 0 else (t - v) * h t) A /\ is_tint (fun t => if Rltb t v then (v - t) * h t else 0) B.
Proof.
  intros Hn HW H. destruct (abs_moment h v T Hn H) as (A & B & HA & HB & E & Hm & IA & IB). exists A, B. do 3 (split; [assumption|]).
  split; [|split; assumption].
  assert (Hs : forall t, Rabs (2 * v - t - v) = Rabs (t - v)). { intros t. rewrite <- Rabs_Ropp. f_equal. ring. }
  pose proof (foldw_sym low v h _ _ Hs Hm) as Hf. pose proof (foldw_tint low v h W HW) as HF.
  rewrite (Rmult_comm W v). apply tint_ext with (2 := tint_plus _ _ _ _ (tint_scal v _ _ HF) (tint_scal (if low then 1 else -1) _ _ Hf)).
  intros t. cbv beta. rewrite <- foldw_abs. destruct low; ring.
Qed.

(* ---------------------------------------------------------------- the density with a boundary *)
Lemma wall_density data ws d M K (prob low : bool) (v : R) : built_kde 1 data ws d M None K ->
  exists f g, kde_density K prob 1 (Some [Some (wall low v)]) PNone = Ok f /\ kde_density K prob 1 None PNone = Ok g
    /\ (forall x, 0 <= g x) /\ (forall x, g x = g (pt1 (x O))) /\ forall t, f (pt1 t) = foldw low v (fun s => g (pt1 s)) t.
Proof.
  intros HB. destruct (built_inv _ _ _ _ _ _ _ HB) as (En & Ed & Hne & Er & Ew & Hl & Hnn & Hp & Et & Ek & Hs & Hpd).
  destruct (density_refl_ex d 1 M data ws [Some (wall low v)] Hs Hpd Hl eq_refl) as [f Hf].
  destruct (density_refl_1 d M data ws _ f Hf) as [g [Hg [Hg1 Hfg]]].
  exists (scaled prob ws f), (scaled prob ws g). repeat split.
  - rewrite (density_as_kernel _ _ _ _ _ _ _ prob (Some [Some (wall low v)]) HB). cbn [length Nat.eqb negb]. rewrite (Hf : kernel_density _ _ _ _ _ (@Some (list (option bnd)) _) _ = _). reflexivity.
  - rewrite (density_as_kernel _ _ _ _ _ _ _ prob None HB). cbv zeta. rewrite Hg. reflexivity.
  - intros x. rewrite scaled_val by exact Hp. apply Rmult_le_pos.
    + apply Rmult_le_pos; [unfold mass; destruct prob; lra|left; apply Rinv_0_lt_compat, Hp].
    + apply (kernel_density_nonneg _ _ _ _ _ _ _ _ x Hg Hnn).
  - intros x. rewrite !scaled_val by exact Hp. rewrite Hg1. reflexivity.
  - intros t. unfold foldw. rewrite !scaled_val by exact Hp. rewrite Hfg. unfold fold1, wall, outside, out, opt_term. destruct low; cbn [fst snd];
      [rewrite orb_false_r; change (pt1 t O) with t; destruct (Rltb t v); ring|rewrite orb_false_l; change (pt1 t O) with t; destruct (Rltb v t); ring].
Qed.

Lemma line1 (g phi : pt -> R) l : (forall x, g x = g (pt1 (x O))) -> (forall x, phi x = phi (pt1 (x O))) -> is_tintN 1 (fun x => phi x * g x) (pt1 0) l -> is_tint (fun t => phi (pt1 t) * g (pt1 t)) l.
Proof.
  intros Hg Hp H. apply tintN_1 in H. apply tint_ext with (2 := H). intros t. cbv beta. rewrite (Hg (upd _ _ _)), (Hp (upd _ _ _)). reflexivity.
Qed.

Lemma wall_symmetric data ws d M K (prob low : bool) (v : R) (phi : R -> R) l f g : built_kde 1 data ws d M None K -> (forall t, phi (2 * v - t) = phi t) ->
  kde_density K prob 1 None PNone = Ok g -> kde_density K prob 1 (Some [Some (wall low v)]) PNone = Ok f ->
  is_tint (fun t => phi t * g (pt1 t)) l -> is_tint (fun t => phi t * f (pt1 t)) l.
Proof.
  intros HB Hs Hg Hf H. destruct (wall_density _ _ _ _ _ prob low v HB) as (f' & g' & Hf' & Hg' & _ & _ & E).
  rewrite Hg in Hg'. injection Hg' as <-. rewrite Hf in Hf'. injection Hf' as <-.
  apply tint_ext with (2 := foldw_sym low v _ phi l Hs H). intros t. rewrite E. reflexivity.
Qed.

Lemma wall_facts data ws d M K (prob low : bool) (v : R) : built_kde 1 data ws d M None K ->
  exists f g, kde_density K prob 1 (Some [Some (wall low v)]) PNone = Ok f /\ kde_density K prob 1 None PNone = Ok g
    /\ (forall x, 0 <= g x) /\ (forall t, f (pt1 t) = foldw low v (fun s => g (pt1 s)) t)
    /\ is_tint (fun t => g (pt1 t)) (mass prob ws) /\ is_tint (fun t => (t - v) * g (pt1 t)) (mass prob ws * (data_mean data ws 0 - v))
    /\ is_tint (fun t => (t - v) * (t - v) * g (pt1 t)) (mass prob ws * (data_cov data ws (fun _ => v) 0 0 + kernel_var d 1 * M O O)).
Proof.
  intros HB. destruct (wall_density _ _ _ _ _ prob low v HB) as (f & g & Hf & Hg & Hn & H1 & E). exists f, g.
  do 2 (split; [assumption|]). split; [exact Hn|]. split; [exact E|].
  destruct (top_integral 1 _ _ _ _ _ prob (pt1 0) (le_n 1) HB) as (g' & Hg' & I0). rewrite Hg in Hg'. injection Hg' as <-.
  destruct (density_mean 1 _ _ _ _ _ prob (pt1 0) 0 ltac:(lia) HB) as (g' & Hg' & I1). rewrite Hg in Hg'. injection Hg' as <-.
  destruct (density_second 1 _ _ _ _ _ prob (pt1 0) 0 0 (fun _ => v) ltac:(lia) ltac:(lia) HB) as (g' & Hg' & I2). rewrite Hg in Hg'. injection Hg' as <-.
  assert (J0 : is_tint (fun t => g (pt1 t)) (mass prob ws)). { apply tintN_1 in I0. apply tint_ext with (2 := I0). intros t. rewrite (H1 (upd _ _ _)). reflexivity. }
  assert (J1 : is_tint (fun t => t * g (pt1 t)) (mass prob ws * data_mean data ws 0)). { exact (line1 g (fun x => x O) _ H1 (fun _ => eq_refl) I1). }
  split; [exact J0|]. split.
  - replace (mass prob ws * (data_mean data ws 0 - v)) with (mass prob ws * data_mean data ws 0 + - v * mass prob ws) by ring.
    apply tint_ext with (2 := tint_plus _ _ _ _ J1 (tint_scal (- v) _ _ J0)). intros t. cbv beta. ring.
  - exact (line1 g (fun x => (x O - v) * (x O - v)) _ H1 (fun _ => eq_refl) I2).
Qed.

Lemma wall_square data ws d M K (prob low : bool) (v : R) : built_kde 1 data ws d M None K ->
  exists f, kde_density K prob 1 (Some [Some (wall low v)]) PNone = Ok f
    /\ is_tint (fun t => (t - v) * (t - v) * f (pt1 t)) (mass prob ws * (data_cov data ws (fun _ => v) 0 0 + kernel_var d 1 * M O O)).
Proof.
  intros HB. destruct (wall_facts _ _ _ _ _ prob low v HB) as (f & g & Hf & Hg & _ & _ & _ & _ & I2). exists f. split; [exact Hf|].
  refine (wall_symmetric _ _ _ _ _ prob low v (fun t => (t - v) * (t - v)) _ f g HB _ Hg Hf I2). intros t. ring.
Qed.

Lemma mass_pos data ws d M K (prob : bool) : built_kde 1 data ws d M None K -> 0 < mass prob ws.
Proof. intros HB. destruct (built_inv _ _ _ _ _ _ _ HB) as (_ & _ & _ & _ & _ & _ & _ & Hp & _). unfold mass. destruct prob; lra. Qed.

Lemma wall_core data ws d M K (prob low : bool) (v : R) : built_kde 1 data ws d M None K ->
  exists f g m A B, kde_density K prob 1 (Some [Some (wall low v)]) PNone = Ok f /\ kde_density K prob 1 None PNone = Ok g
    /\ is_tint (fun t => t * f (pt1 t)) (mass prob ws * m) /\ 0 <= A /\ 0 <= B
    /\ mass prob ws * (data_mean data ws 0 - v) = A - B /\ mass prob ws * (m - v) = (if low then 1 else -1) * (A + B)
    /\ is_tint (fun t => if Rltb t v then 0 else (t - v) * g (pt1 t)) A /\ is_tint (fun t => if Rltb t v then (v - t) * g (pt1 t) else 0) B.
Proof.
  intros HB. destruct (wall_facts _ _ _ _ _ prob low v HB) as (f & g & Hf & Hg & Hn & E & I0 & I1 & _). pose proof (mass_pos _ _ _ _ _ prob HB) as HW.
  destruct (foldw_mean low v (fun t => g (pt1 t)) _ _ (fun t => Hn (pt1 t)) I0 I1) as (A & B & HA & HB' & ET & Im & IA & IB).
  exists f, g, (v + (if low then 1 else -1) * (A + B) / mass prob ws), A, B. split; [exact Hf|]. split; [exact Hg|]. split.
  - replace (mass prob ws * (v + (if low then 1 else -1) * (A + B) / mass prob ws)) with (mass prob ws * v + (if low then 1 else -1) * (A + B)) by (field; lra).
    apply tint_ext with (2 := Im). intros t. rewrite E. reflexivity.
  - repeat (split; [assumption|]). split; [field; lra|]. split; assumption.
Qed.

Lemma wall_mean data ws d M K (prob low : bool) (v : R) : built_kde 1 data ws d M None K ->
  exists f m, kde_density K prob 1 (Some [Some (wall low v)]) PNone = Ok f /\ is_tint (fun t => t * f (pt1 t)) (mass prob ws * m)
    /\ inward low v m /\ inward low (data_mean data ws 0) m.
Proof.
  intros HB. destruct (wall_core _ _ _ _ _ prob low v HB) as (f & g & m & A & B & Hf & _ & Im & HA & HB' & E1 & E2 & _). pose proof (mass_pos _ _ _ _ _ prob HB) as HW.
  exists f, m. split; [exact Hf|]. split; [exact Im|]. unfold inward. destruct low; split; nra.
Qed.

Lemma wall_gaussian data ws M K (prob low : bool) (v : R) : built_kde 1 data ws Gaussian M None K ->
  exists f m, kde_density K prob 1 (Some [Some (wall low v)]) PNone = Ok f /\ is_tint (fun t => t * f (pt1 t)) (mass prob ws * m)
    /\ inward_strictly low v m /\ inward_strictly low (data_mean data ws 0) m.
Proof.
  intros HB. destruct (wall_core _ _ _ _ _ prob low v HB) as (f & g & m & A & B & Hf & Hg & Im & HA & HB' & E1 & E2 & IA & IB). pose proof (mass_pos _ _ _ _ _ prob HB) as HW.
  destruct (built_inv _ _ _ _ _ _ _ HB) as (En & Ed & Hne & Er & Ew & Hl & Hnn & Hp & Et & Ek & Hs & Hpd).
  pose proof (posdef_diag_pos 1 M O Hpd ltac:(lia)) as HM.
  destruct (density_plain_ex _ _ _ _ _ _ prob HB) as [k [Hk HD]]. rewrite Hg in HD. injection HD as ->.
  assert (Hge : forall t, exists c, 0 < c /\ forall s, t <= s <= t + 1 -> c <= scaled prob ws k (pt1 s)).
  { intros t. destruct (gaussian_1_pos Gaussian M data ws k t eq_refl HM Hl Hnn (lsum_pos_ex ws Hnn Hp) Hk) as [c [Hc H]].
    exists (mass prob ws / lsum ws * c). assert (0 < mass prob ws / lsum ws) by (apply Rdiv_lt_0_compat; assumption). split; [apply Rmult_lt_0_compat; assumption|].
    intros s Hs'. rewrite scaled_val by exact Hp. apply Rmult_le_compat_l; [lra|apply H, Hs']. }
  assert (Hn : forall s, 0 <= scaled prob ws k (pt1 s)).
  { intros s. destruct (Hge s) as [c [Hc H]]. specialize (H s ltac:(lra)). lra. }
  assert (PA : 0 < A).
  { destruct (Hge (v + 1)) as [c [Hc H]]. destruct (tint_ex_RInt _ _ (v + 1) (v + 1 + 1) IA ltac:(lra)) as [z Hz].
    assert (L : z <= A). { refine (tint_split _ _ _ _ _ IA _ Hz _); [lra|]. intros x. cbv beta. destruct (Rltb_spec x v); [lra|]. apply Rmult_le_pos; [lra|apply Hn]. }
    assert ((v + 1 + 1 - (v + 1)) * c <= z); [|lra].
    refine (is_RInt_le (fun _ => c) _ (v + 1) (v + 1 + 1) _ _ _ (is_RInt_const_r _ _ _) Hz _); [lra|]. intros x Hx. cbv beta.
    destruct (Rltb_spec x v); [lra|]. specialize (H x ltac:(lra)). nra. }
  assert (PB : 0 < B).
  { destruct (Hge (v - 2)) as [c [Hc H]]. destruct (tint_ex_RInt _ _ (v - 2) (v - 2 + 1) IB ltac:(lra)) as [z Hz].
    assert (L : z <= B). { refine (tint_split _ _ _ _ _ IB _ Hz _); [lra|]. intros x. cbv beta. destruct (Rltb_spec x v); [|lra]. apply Rmult_le_pos; [lra|apply Hn]. }
    assert ((v - 2 + 1 - (v - 2)) * c <= z); [|lra].
    refine (is_RInt_le (fun _ => c) _ (v - 2) (v - 2 + 1) _ _ _ (is_RInt_const_r _ _ _) Hz _); [lra|]. intros x Hx. cbv beta.
    destruct (Rltb_spec x v); [|lra]. specialize (H x ltac:(lra)). nra. }
  exists f, m. split; [exact Hf|]. split; [exact Im|]. unfold inward_strictly. destruct low; split; nra.
Qed.

(** Nothing reaches the boundary. *)
Lemma wall_away data ws d M K (prob low : bool) (v : R) : built_kde 1 data ws d M None K -> finite d = true ->
  (forall p, In p data -> inward low (if low then v + sqrt (M O O) else v - sqrt (M O O)) (p O)) ->
  exists f, kde_density K prob 1 (Some [Some (wall low v)]) PNone = Ok f /\ is_tint (fun t => t * f (pt1 t)) (mass prob ws * data_mean data ws 0).
Proof.
  intros HB Hfin Hd. destruct (wall_core _ _ _ _ _ prob low v HB) as (f & g & m & A & B & Hf & Hg & Im & HA & HB' & E1 & E2 & IA & IB). pose proof (mass_pos _ _ _ _ _ prob HB) as HW.
  exists f. split; [exact Hf|]. assert (Z : (if low then B else A) = 0).
  { destruct low; [refine (tint_unique _ _ _ IB _)|refine (tint_unique _ _ _ IA _)]; apply tint_ext with (2 := tint_zero); intros t; cbv beta; destruct (Rltb_spec t v); try reflexivity.
    - rewrite (top_finite_support 1 _ _ _ _ _ prob g (pt1 t) 0 HB Hfin ltac:(lia) Hg); [ring|]. intros p Hp. specialize (Hd p Hp). unfold inward in Hd. unfold pt1. rewrite Rabs_left; lra || (pose proof (sqrt_pos (M O O)); lra).
    - destruct (Req_dec t v) as [->|Ne]; [ring|]. rewrite (top_finite_support 1 _ _ _ _ _ prob g (pt1 t) 0 HB Hfin ltac:(lia) Hg); [ring|]. intros p Hp. specialize (Hd p Hp). unfold inward in Hd. unfold pt1.
      pose proof (sqrt_pos (M O O)). assert (v < t) by lra. rewrite Rabs_right; lra. }
  replace (data_mean data ws 0) with m; [exact Im|]. destruct low; nra.
Qed.

Lemma data_cov_shift data ws v : length ws = length data -> 0 < lsum ws ->
  data_cov data ws (fun _ => v) 0 0 = data_cov data ws (data_mean data ws) 0 0 + (data_mean data ws 0 - v) * (data_mean data ws 0 - v).
Proof.
  intros Hl Hp. assert (Hn : rsum (length data) (fun k => nth k ws 0) <> 0) by (rewrite rsum_ws by exact Hl; lra).
  set (W := rsum (length data) (fun k => nth k ws 0)) in *. set (m := data_mean data ws 0).
  assert (Em : rsum (length data) (fun k => nth k ws 0 * nth k data (fun _ => 0) O) = W * m) by (unfold m, data_mean; fold W; field; exact Hn).
  unfold data_cov. fold W. fold m.
  assert (E : rsum (length data) (fun k => nth k ws 0 * ((nth k data (fun _ => 0) O - v) * (nth k data (fun _ => 0) O - v)))
    = rsum (length data) (fun k => nth k ws 0 * ((nth k data (fun _ => 0) O - m) * (nth k data (fun _ => 0) O - m)))
      + (2 * (m - v) * rsum (length data) (fun k => nth k ws 0 * nth k data (fun _ => 0) O) + (v * v - m * m) * W)).
  { unfold W. rewrite <- !rsum_scal, <- !rsum_plus. apply rsum_ext. intros k Hk. cbv beta. ring. }
  rewrite E, Em. field. exact Hn.
Qed.

Lemma wall_variance data ws d M K (prob low : bool) (v : R) : built_kde 1 data ws d M None K -> inward low v (data_mean data ws 0) ->
  exists f m s, kde_density K prob 1 (Some [Some (wall low v)]) PNone = Ok f /\ is_tint (fun t => t * f (pt1 t)) (mass prob ws * m)
    /\ is_tint (fun t => (t - m) * (t - m) * f (pt1 t)) (mass prob ws * s)
    /\ s <= data_cov data ws (data_mean data ws) 0 0 + kernel_var d 1 * M O O.
Proof.
  intros HB Hi. destruct (wall_mean _ _ _ _ _ prob low v HB) as (f & m & Hf & Im & H1 & H2).
  destruct (wall_square _ _ _ _ _ prob low v HB) as (f' & Hf' & I2). rewrite Hf in Hf'. injection Hf' as <-.
  destruct (wall_facts _ _ _ _ _ prob low v HB) as (f' & g & Hf' & Hg & _ & E & I0 & _). rewrite Hf in Hf'. injection Hf' as <-.
  destruct (built_inv _ _ _ _ _ _ _ HB) as (En & Ed & Hne & Er & Ew & Hl & Hnn & Hp & Et & Ek & Hs & Hpd).
  assert (IF : is_tint (fun t => f (pt1 t)) (mass prob ws)). { apply tint_ext with (2 := foldw_tint low v _ _ I0). intros t. rewrite E. reflexivity. }
  set (q := data_cov data ws (fun _ => v) 0 0 + kernel_var d 1 * M O O) in *.
  exists f, m, (q - (m - v) * (m - v)). split; [exact Hf|]. split; [exact Im|]. split.
  - replace (mass prob ws * (q - (m - v) * (m - v))) with (mass prob ws * q + (-2 * (m - v) * (mass prob ws * m) + ((m - v) * (m + v)) * mass prob ws)) by ring.
    apply tint_ext with (2 := tint_plus _ _ _ _ I2 (tint_plus _ _ _ _ (tint_scal (-2 * (m - v)) _ _ Im) (tint_scal ((m - v) * (m + v)) _ _ IF))). intros t. cbv beta. ring.
  - unfold q. rewrite (data_cov_shift data ws v Hl Hp). unfold inward in *. destruct low; nra.
Qed.

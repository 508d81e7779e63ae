(** Examples for C139 and C140. *)
From Coq Require Import ZArith Permutation.
From Verif Require Import Base ModelLinAlg ModelKernels ModelKDE ModelUtils ModelNd ModelExtrema ModelReflect ModelApi ModelGrid ModelSample ModelPlot ModelDist ModelContour ModelCarpet ModelDraw
  SpecKDE SpecLinAlg SpecKernels SpecUtils SpecNd SpecPlot SpecSample SpecContour SpecDraw ProofUtils ProofUtils2 ProofNd ProofNd2 ProofSample ProofKDE ProofTop ProofTop2 ProofPlot2 ProofPlot3 ProofPlot4 ProofDist3 ProofSlope ProofContour ProofDraw.
Open Scope R_scope.
Notation length := List.length.

(** An array of two by two entries. *)
Lemma entry22 h v : shp h = [2; 2]%nat -> entry h v <-> v = at_ h [0; 0]%nat \/ v = at_ h [0; 1]%nat \/ v = at_ h [1; 0]%nat \/ v = at_ h [1; 1]%nat.
Proof.
  intros S. rewrite (entry2 h 2 2 v S). split.
  - intros (i & j & Hi & Hj & E). destruct i as [|[|i]], j as [|[|j]]; try lia; auto.
  - intros [->|[->|[->| ->]]]; [exists 0%nat, 0%nat|exists 0%nat, 1%nat|exists 1%nat, 0%nat|exists 1%nat, 1%nat]; repeat split; lia.
Qed.
Lemma sum22 h (f : R -> R) : shp h = [2; 2]%nat -> asum (shp h) (fun idx => f (at_ h idx)) = f (at_ h [0; 0]%nat) + f (at_ h [0; 1]%nat) + f (at_ h [1; 0]%nat) + f (at_ h [1; 1]%nat).
Proof. intros ->. cbn. ring. Qed.
(** a, b, b, c with a > b > c > 0. *)
Section Three.
Variables (h : nda) (a b c : R).
Hypotheses (S : shp h = [2; 2]%nat) (H1 : at_ h [0; 0]%nat = a) (H2 : at_ h [0; 1]%nat = b) (H3 : at_ h [1; 0]%nat = b) (H4 : at_ h [1; 1]%nat = c) (Hab : b < a) (Hbc : c < b) (Hc : 0 < c).
Lemma three_entry v : entry h v <-> v = a \/ v = b \/ v = c.
Proof. rewrite (entry22 h v S), H1, H2, H3, H4. tauto. Qed.
Lemma three_total : total_of h = a + 2 * b + c.
Proof. transitivity (at_ h [0; 0]%nat + at_ h [0; 1]%nat + at_ h [1; 0]%nat + at_ h [1; 1]%nat); [exact (sum22 h (fun x => x) S)|]. rewrite H1, H2, H3, H4. ring. Qed.
Lemma three_above v : above h v = (if Rltb v a then a else 0) + 2 * (if Rltb v b then b else 0) + (if Rltb v c then c else 0).
Proof. unfold above. rewrite (sum22 h (fun x => if Rltb v x then x else 0) S), H1, H2, H3, H4. ring. Qed.
Lemma three_top q : q * (a + 2 * b + c) < a + b -> level_for h q a.
Proof.
  intros Hq. split; [apply three_entry; auto|]. rewrite three_total. split; [left; intros u Hu; apply three_entry in Hu; lra|].
  intros u Hu Hlt. apply three_entry in Hu. rewrite three_above. assert (Hu' : u = b \/ u = c) by (destruct Hu as [->|Hu]; [lra|exact Hu]). destruct Hu' as [->| ->]; decide_all; lra.
Qed.
Lemma three_mid q : a + b <= q * (a + 2 * b + c) < a + 2 * b + c -> level_for h q b.
Proof.
  intros Hq. split; [apply three_entry; auto|]. rewrite three_total. split; [right; rewrite three_above; decide_all; lra|].
  intros u Hu Hlt. apply three_entry in Hu. rewrite three_above. assert (u = c) by (destruct Hu as [->|[->| ->]]; lra). subst u. decide_all; lra.
Qed.
Lemma three_2x2 : at_least_2x2 h.
Proof. exists 2%nat, 2%nat. rewrite S. split; [reflexivity|lia]. Qed.
Lemma three_inner : strictly_inside h b.
Proof. split; [exists c|exists a]; rewrite three_entry; auto. Qed.
Lemma three_nonneg u : entry h u -> 0 <= u.
Proof. rewrite three_entry. intros [->|[->| ->]]; lra. Qed.
Lemma three_least : least_entry h c.
Proof. split; [apply three_entry; auto|]. intros u Hu. apply three_entry in Hu. lra. Qed.
Lemma three_greatest : greatest_entry h a.
Proof. split; [apply three_entry; auto|]. intros u Hu. apply three_entry in Hu. lra. Qed.
End Three.

Definition h3 : nda := mkA [2; 2]%nat (fun idx => match idx with [0%nat; 0%nat] => 4 | [0%nat; 1%nat] => 2 | [1%nat; 0%nat] => 2 | _ => 1 end).
Definition c3 : list nda := map (mesh [[0; 1]; [0; 1]]) (seq 0 2).
Lemma h3_prep : prep_hist [[0; 1]; [0; 1]] h3 PadNone = Ok (c3, h3).
Proof. reflexivity. Qed.
Ltac h3 := try reflexivity; try lra.
(** One fraction, half of what the densest bin contains: the line drawn is the edge of the whole array. *)
Lemma small_refuted : exists edges hist q cs h l v, 0 < q < 1 /\ draw_contour2d edges hist (Some [q]) None PadNone (LwNum 1) (Some 1) OlTrue = ([ALines cs h [l]], Ok (cs, h, [l]))
  /\ least_entry h (ln_level l) /\ level_for h q v /\ ln_level l < v.
Proof.
  destruct (contour2d_small [[0; 1]; [0; 1]] h3 [2 / 9] PadNone 1 1 OlTrue c3 h3 4 1) as (l & E & El); try lra.
  - exact h3_prep.
  - apply (three_2x2 h3); h3.
  - intros u. apply (three_nonneg h3 4 2 1); h3.
  - rewrite (three_total h3 4 2 1); h3.
  - apply (three_greatest h3 4 2 1); h3.
  - apply (three_least h3 4 2 1); h3.
  - intros q [<-|[]]. rewrite (three_total h3 4 2 1); h3.
  - left. reflexivity.
  - exists [[0; 1]; [0; 1]], h3, (2 / 9), c3, h3, l, 4. split; [lra|]. split; [exact E|]. rewrite El. split; [apply (three_least h3 4 2 1); h3|]. split; [apply (three_top h3 4 2 1); h3|lra].
Qed.
(** Three fractions, two of them with the same level. *)
Lemma same_refuted : exists edges hist qs, incr_list qs /\ (forall q, In q qs -> 0 < q < 1) /\ draw_contour2d edges hist (Some qs) None PadNone (LwNum 1) (Some 1) OlTrue = ([], Err ValueError).
Proof.
  exists [[0; 1]; [0; 1]], h3, [1 / 9; 2 / 9; 7 / 9]. split; [apply incr3; lra|]. split; [intros q [<-|[<-|[<-|[]]]]; lra|].
  apply (contour2d_same _ _ _ _ _ _ _ c3 h3 0 1 4 2 (7 / 9)); try lra; try (cbn; lia).
  - exact h3_prep.
  - apply (three_2x2 h3); h3.
  - intros u. apply (three_nonneg h3 4 2 1); h3.
  - rewrite (three_total h3 4 2 1); h3.
  - cbn [nth]. apply (three_top h3 4 2 1); h3.
  - cbn [nth]. apply (three_top h3 4 2 1); h3.
  - right. right. left. reflexivity.
  - apply (three_mid h3 4 2 1); h3.
  - apply (three_inner h3 4 2 1); h3.
Qed.
(** The lines of h3 for levels given. *)
Lemma h3_drawn lw a ol : (exists w, lw = LwNum w) \/ (exists ls, lw = LwList ls) -> 0 <= a <= 1 -> plain_outline ol ->
  exists lines, draw_contour2d [[0; 1]; [0; 1]] h3 None (Some [3 / 2; 3]) PadNone lw (Some a) ol = ([ALines c3 h3 lines], Ok (c3, h3, lines)) /\ map ln_level lines = [3 / 2; 3] /\ map ln_width lines = [mpl_width lw 0; mpl_width lw 1].
Proof.
  intros Hl Ha Ho. assert (EM : mpl_levels h3 [3 / 2; 3] = Ok [3 / 2; 3]).
  { destruct (mpl_levels_cases h3 [3 / 2; 3]) as [[N _]|[(_ & Hno & _)|[(_ & _ & _ & E)|(_ & _ & HI & _)]]].
    - contradiction N. apply (three_2x2 h3); h3.
    - contradiction (Hno 3); [right; left; reflexivity|]. split; [exists 1|exists 4]; (split; [apply (three_entry h3 4 2 1); h3; auto|lra]).
    - exact E.
    - contradiction HI. intros i j Hi Hj. cbn in Hj. destruct i as [|[|i]], j as [|[|j]]; try lia; cbn; lra. }
  unfold draw_contour2d. rewrite h3_prep, dres_bind. cbn [fst snd contour_levels]. rewrite dres_bind, EM, dres_bind, (proj2 (Rleb_true 0 a)), (proj2 (Rleb_true a 1)) by lra. cbn [andb]. rewrite dres_bind.
  destruct Ho as [-> | ->]; [destruct Hl as [[w ->]|[ls ->]]; cbn [outline_effects]; [|destruct (Nat.eqb _ _)]|]; cbv zeta; eexists; (split; [reflexivity|split; reflexivity]).
Qed.
Lemma other_length_refuted : exists edges hist levels ls r l, snd (draw_contour2d edges hist None (Some levels) PadNone (LwList ls) (Some 1) OlTrue) = Ok r /\ length ls <> length (snd r)
  /\ In l (snd r) /\ exists w o al, ln_width l = Some w /\ ln_outline l = Some (o, al) /\ o < w.
Proof.
  destruct (h3_drawn (LwList [4]) 1 OlTrue) as (lines & E & El & Ew); [right; eauto|lra|left; reflexivity|].
  destruct lines as [|l [|l2 [|]]]; try discriminate El. exists [[0; 1]; [0; 1]], h3, [3 / 2; 3], [4], (c3, h3, [l; l2]), l. rewrite E. cbn [snd]. split; [reflexivity|]. split; [cbn; lia|]. split; [left; reflexivity|].
  destruct (outline_other [[0; 1]; [0; 1]] h3 None (Some [3 / 2; 3]) PadNone [4] 1 (c3, h3, [l; l2])) with (i := 0%nat) (l := l) as [W [o Ho]]; [lra|discriminate|rewrite E; reflexivity|cbn; lia|reflexivity|].
  exists 4, 3, o. split; [exact W|]. split; [exact Ho|lra].
Qed.

(* ---------------------------------------------------------------- dist2d *)
Definition k2 : kde := k12 Gaussian 2 None.
(** The density of one datum at the corner of a grid of two by two points. *)
Lemma gauss_grid : exists a c, dist2d_contour k2 [0; 1]%nat false (Ok [[0; 1]; [0; 1]]) = Ok (PtRows [[0; 1]; [0; 1]], a) /\ shp a = [2; 2]%nat /\ 0 < c
  /\ at_ a [0; 0]%nat = c /\ at_ a [0; 1]%nat = c * exp (-1 / 2) /\ at_ a [1; 0]%nat = c * exp (-1 / 2) /\ at_ a [1; 1]%nat = c * exp (-1).
Proof.
  pose proof (k12_built Gaussian 2 None) as HB. fold k2 in HB.
  destruct (params_swapped_2d [origin] [1] Gaussian ident k2 [0; 1] [0; 1] HB) as (_ & _ & f & a & b & Hf & Ea & _ & Hv).
  destruct (top_params_ok 2 [origin] [1] Gaussian ident k2 false [0; 1]%nat HB) as [f1 Hf1]; [lia|repeat constructor; cbn; intuition discriminate|intros q [<-|[<-|[]]]; lia|].
  destruct (contour_grid k2 [[0; 1]; [0; 1]] f1 0 1) as (a' & Ea' & Sa & _); try (cbn; lia); [exact Hf1|]. cbn [nth] in Ea', Sa. rewrite Ea in Ea'. injection Ea' as <-.
  destruct (as_textbook _ _ _ _ _ _ _ _ _ (le_S _ _ (le_n 1)) HB (ident_inverse 2) Hf) as (Z & HZ & _ & _ & _ & Ef).
  assert (EV : forall i j x, (i < 2)%nat -> (j < 2)%nat -> - (vget [0; 1] i * vget [0; 1] i + vget [0; 1] j * vget [0; 1] j) / 2 = x -> at_ a [i; j] = 1 / Z * exp x).
  { intros i j x Hi Hj <-. rewrite (proj1 (Hv i j Hi Hj)), Ef. unfold mass. cbn [lsum combine]. unfold spec_sum, sumf. unfold spec_prof, quad, psub, origin, ident. cbn [rsum Nat.eqb].
    cbn [map lsum fst snd]. match goal with |- context [1 * exp ?y] => replace y with (- (vget [0; 1] i * vget [0; 1] i + vget [0; 1] j * vget [0; 1] j) / 2) by lra end. field. lra. }
  exists a, (1 / Z). split; [exact Ea|]. split; [exact Sa|]. split; [apply Rdiv_lt_0_compat; lra|].
  split; [rewrite (EV 0%nat 0%nat 0), exp_0 by (cbn; lia || lra); ring|].
  split; [apply (EV 0%nat 1%nat); [lia|lia|cbn; lra]|]. split; [apply (EV 1%nat 0%nat); [lia|lia|cbn; lra]|apply (EV 1%nat 1%nat); [lia|lia|cbn; lra]].
Qed.
Lemma forall2_two {A B} (P : A -> B -> Prop) x y l : Forall2 P [x; y] l -> exists u v, l = [u; v] /\ P x u /\ P y v.
Proof. intros H. inversion H as [|? u ? l1 H1 H2]. subst. inversion H2 as [|? v ? l2 H3 H4]. subst. inversion H4. subst. exists u, v. auto. Qed.
Definition xs4 : list R := [1 / 2; 1 / 2; 3 / 2; 3 / 2].
Definition ys4 : list R := [1 / 2; 3 / 2; 1 / 2; 3 / 2].
Lemma hist4_levels qs : exists lv, dfm_levels (hist2d_array px px (combine xs4 ys4) [10; 9; 8; 1]) (Some qs) None = Ok lv /\ snd lv = qs.
Proof.
  change (combine xs4 ys4) with pdata. pose proof p_incr as I1. assert (HW : 0 < grid_weight px px pw) by (rewrite p_total; lra). assert (L1 : (2 <= length px)%nat) by (cbn; lia).
  destruct (dfm_levels_spec (hist2d_array px px pdata [10; 9; 8; 1]) (Some qs) None) as (sg & levels & qs' & ls & E & Eq & _).
  - intros v Hv. apply (entry_hist px px pdata [10; 9; 8; 1] pw p_weights L1 L1 I1 I1 v HW) in Hv. destruct Hv as (i & j & Hi & Hj & <-). cbn in Hi, Hj. rewrite p_density by assumption. destruct i as [|[|i]], j as [|[|j]]; try lia; cbn; lra.
  - rewrite (sum_total px px pdata [10; 9; 8; 1] pw p_weights L1 L1 I1 I1 HW). cbn [length px Nat.sub rsum]. rewrite !p_density by lia. cbn. lra.
  - exists (sg, levels, qs'). split; [exact E|]. cbn [default_quantiles] in Eq. injection Eq as -> _. reflexivity.
Qed.
Lemma hist4_mask qs lv : dfm_levels (hist2d_array px px (combine xs4 ys4) [10; 9; 8; 1]) (Some qs) None = Ok lv -> dist2d_mask (hist2d_array px px (combine xs4 ys4) [10; 9; 8; 1]) (Some qs) None MbFalse = Ok None.
Proof. intros E. unfold dist2d_mask. rewrite E. reflexivity. Qed.
Lemma median4 l : length l = 4%nat -> exists v, dist2d_median isort l (Some [10; 9; 8; 1]) = Ok v.
Proof.
  intros L. unfold dist2d_median. destruct (quantiles_total isort l [1 / 2] [10; 9; 8; 1]) as (qs & E & _); [destruct l; discriminate|rewrite L; reflexivity|intros p [<-|[]]; lra|].
  rewrite E. cbn [bind]. eauto.
Qed.
Definition draw4 (qs : list R) (median : bool) (scatter : numarg) (hist : bool) : drawing handle :=
  dist2d_draw isort (fun _ k => seq 0 k) k2 xs4 ys4 (Some [10; 9; 8; 1]) px px [0; 1]%nat (Some qs) None PadNone OlTrue median scatter true hist None MbFalse false (Ok [[0; 1]; [0; 1]]).
Lemma draw4_all : snd (draw4 [1 / 10; 9 / 10] true NaTrue true) = Ok HHist /\ map kind_of (fst (draw4 [1 / 10; 9 / 10] true NaTrue true)) = [KScatter; KVline; KHline; KHist; KLines; KMask].
Proof.
  unfold draw4, dist2d_draw. destruct gauss_grid as (a & c & Ea & Sa & Hc & V1 & V2 & V3 & V4).
  assert (Hb1 : exp (-1 / 2) < 1) by (rewrite <- exp_0; apply exp_increasing; lra).
  assert (Hb2 : exp (-1) < exp (-1 / 2)) by (apply exp_increasing; lra).
  assert (Hb3 : 1 / 2 < exp (-1 / 2)) by (pose proof (exp_ineq1 (-1 / 2)); lra).
  assert (Hb4 : 0 < exp (-1)) by apply exp_pos.
  assert (Hab : c * exp (-1 / 2) < c) by (rewrite <- (Rmult_1_r c) at 2; apply Rmult_lt_compat_l; lra).
  assert (Hbc : c * exp (-1) < c * exp (-1 / 2)) by (apply Rmult_lt_compat_l; lra).
  assert (Hc0 : 0 < c * exp (-1)) by (apply Rmult_lt_0_compat; lra).
  assert (Hh : c * (1 / 2) < c * exp (-1 / 2)) by (apply Rmult_lt_compat_l; lra).
  set (b := c * exp (-1 / 2)) in *. set (e := c * exp (-1)) in *.
  assert (HL : dfm_levels a (Some [1 / 10; 9 / 10]) None = Ok (map sigma_of_quantile [1 / 10; 9 / 10], [b; c], [1 / 10; 9 / 10])).
  { destruct (dfm_levels_spec a (Some [1 / 10; 9 / 10]) None) as (sg & levels & qs' & ls & E & Eq & HF & HP & HN).
    - intros u. apply (three_nonneg a c b e); assumption.
    - rewrite (three_total a c b e) by assumption. lra.
    - cbn [default_quantiles] in Eq. injection Eq as -> ->. rewrite E. do 3 f_equal.
      destruct (forall2_two _ _ _ _ HF) as (v1 & v2 & -> & F1 & F2).
      assert (W1 : level_for a (1 / 10) c) by (apply (three_top a c b e); try assumption; lra). assert (W2 : level_for a (9 / 10) b) by (apply (three_mid a c b e); try assumption; lra).
      rewrite (level_unique a _ _ _ F1 W1), (level_unique a _ _ _ F2 W2) in HP.
      pose proof (Permutation_length HP) as PL. destruct levels as [|x [|y [|]]]; try discriminate PL.
      apply Permutation_length_2 in HP. destruct HP as [[-> ->]|[-> ->]]; [|reflexivity]. pose proof (HN 0%nat 1%nat ltac:(lia) ltac:(cbn; lia)) as Q. cbn in Q. lra. }
  assert (HM : mpl_levels a [b; c] = Ok [b; c]).
  { destruct (mpl_levels_cases a [b; c]) as [[N _]|[(_ & Hno & _)|[(_ & _ & _ & E)|(_ & _ & HI & _)]]].
    - contradiction N. apply (three_2x2 a); assumption.
    - contradiction (Hno b); [left; reflexivity|]. apply (three_inner a c b e); assumption.
    - exact E.
    - contradiction HI. intros i j Hi Hj. cbn in Hj. destruct i as [|[|i]], j as [|[|j]]; try lia; cbn; lra. }
  cbn [scatter_limit]. rewrite dres_bind. cbv zeta. destruct (hist4_levels [1 / 10; 9 / 10]) as (lv & El & Eq). 
  pose proof (hist4_mask _ _ El) as Em. rewrite !dres_bind, El, !dres_bind, Em, Eq, ?dres_bind.
  destruct (median4 xs4 eq_refl) as [mx Ex]. destruct (median4 ys4 eq_refl) as [my Ey]. rewrite Ex, Ey, Ea, ?dres_bind.
  assert (HD : draw_contour2d (rows_of (fst (PtRows [[0; 1]; [0; 1]], a))) (snd (PtRows [[0; 1]; [0; 1]], a)) (Some [1 / 10; 9 / 10]) None PadNone (LwNum (3 / 2)) (Some (8 / 10)) OlTrue
    = ([ALines c3 a (mk_lines (LwNum (3 / 2)) [b; c] (nth_error (repeat (2 * (3 / 2), outline_alpha (8 / 10)) 2)))], Ok (c3, a, mk_lines (LwNum (3 / 2)) [b; c] (nth_error (repeat (2 * (3 / 2), outline_alpha (8 / 10)) 2))))).
  { unfold draw_contour2d. cbn [fst snd rows_of]. assert (EP : prep_hist [[0; 1]; [0; 1]] a PadNone = Ok (c3, a)) by (unfold prep_hist, match_edges; cbn [pad_count bind fst snd]; rewrite Sa; reflexivity).
    rewrite EP, dres_bind. cbn [fst snd contour_levels]. rewrite HL. cbn [bind fst snd]. rewrite dres_bind, HM, dres_bind, (proj2 (Rleb_true 0 (8 / 10))), (proj2 (Rleb_true (8 / 10) 1)) by lra. cbn [andb]. rewrite dres_bind. reflexivity. }
  rewrite HD. clear HD.
  assert (HK : draw_mask c3 a (fun i j => Some (at_ a [i; j])) [1 / 10; 9 / 10] = ([AMask c3 (fun i j => Some (at_ a [i; j])) b (Some c)], Ok tt)).
  { unfold draw_mask, big_enough. rewrite Sa. cbn [Nat.leb andb negb nth]. rewrite HL, dres_bind. cbn [fst snd]. unfold visible_max, visible. cbn [seq flat_map app]. rewrite V1, V2, V3, V4. cbn [vmin vmax].
    rewrite (Rmin_left b c), (Rmax_left c b), (Rmax_left c b), (Rmax_left c e), (proj2 (Rltb_true b c)) by lra. reflexivity. }
  unfold dwhen, put, dret, dbind. cbn [fst snd app orb andb dense_masked]. rewrite HK. cbn [fst snd app]. split; reflexivity.
Qed.
(** One fraction and contours only: an IndexError once the lines are drawn. *)
Lemma draw4_one : exists cs z lines, draw4 [1 / 10] false NaFalse false = ([ALines cs z lines], Err IndexError).
Proof.
  destruct gauss_grid as (a & c & Ea & Sa & Hc & V1 & V2 & V3 & V4).
  assert (Hb1 : exp (-1 / 2) < 1) by (rewrite <- exp_0; apply exp_increasing; lra).
  assert (Hb2 : exp (-1) < exp (-1 / 2)) by (apply exp_increasing; lra).
  assert (Hab : c * exp (-1 / 2) < c) by (rewrite <- (Rmult_1_r c) at 2; apply Rmult_lt_compat_l; lra).
  assert (Hbc : c * exp (-1) < c * exp (-1 / 2)) by (apply Rmult_lt_compat_l; lra).
  assert (Hc0 : 0 < c * exp (-1)) by (apply Rmult_lt_0_compat; [lra|apply exp_pos]).
  set (b := c * exp (-1 / 2)) in *. set (e := c * exp (-1)) in *.
  assert (EP : prep_hist [[0; 1]; [0; 1]] a PadNone = Ok (c3, a)) by (unfold prep_hist, match_edges; cbn [pad_count bind fst snd]; rewrite Sa; reflexivity).
  destruct (contour2d_small [[0; 1]; [0; 1]] a [1 / 10] PadNone (3 / 2) (8 / 10) OlTrue c3 a c e) as (l & E & _); try lra.
  - exact EP.
  - apply (three_2x2 a); assumption.
  - intros u. apply (three_nonneg a c b e); assumption.
  - rewrite (three_total a c b e) by assumption. lra.
  - apply (three_greatest a c b e); assumption.
  - apply (three_least a c b e); assumption.
  - intros q [<-|[]]. rewrite (three_total a c b e) by assumption. lra.
  - left. reflexivity.
  - exists c3, a, [l]. unfold draw4, dist2d_draw. cbn [scatter_limit]. rewrite dres_bind. cbv zeta. destruct (hist4_levels [1 / 10]) as (lv & El & Eq). 
  pose proof (hist4_mask _ _ El) as Em. rewrite !dres_bind, El, !dres_bind, Em, Eq, ?dres_bind.
    unfold dwhen. rewrite Ea. cbv iota. rewrite ?dres_bind. cbn [fst snd rows_of]. rewrite E. reflexivity.
Qed.
Lemma one_refuted : exists K xs ys ws ex ey q points cs z lines, 0 < q < 1
  /\ dist2d_draw isort (fun _ k => seq 0 k) K xs ys (Some ws) ex ey [0; 1]%nat (Some [q]) None PadNone OlTrue false NaFalse true false None MbFalse false (Ok points) = ([ALines cs z lines], Err IndexError).
Proof. destruct draw4_one as (cs & z & lines & E). exists k2, xs4, ys4, [10; 9; 8; 1], px, px, (1 / 10), [[0; 1]; [0; 1]], cs, z, lines. split; [lra|exact E]. Qed.
Lemma layers a b : In (kind_of a, kind_of b) [(KScatter, KMask); (KMask, KHist); (KHist, KLines); (KLines, KVline); (KLines, KHline)] -> (zorder a < zorder b)%nat.
Proof. destruct a, b; cbn [kind_of]; intros H; repeat (destruct H as [H|H]; [try discriminate H; cbn; lia|]); destruct H. Qed.

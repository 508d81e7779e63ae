From Coquelicot Require Import Coquelicot.
From Coq Require Import FunctionalExtensionality.
From Verif Require Import Base ModelLinAlg SpecLinAlg ProofLinAlg SpecIntegral ProofIntegral
  ModelKernels SpecKernels ProofKernels ModelKDE SpecKDE ProofKDE ProofDensity ProofTop ProofReflect1 ProofTop2 ProofTop3 SpecReflected.
Open Scope R_scope.
Notation length := List.length.

Lemma mirror_mirrored i v wd : mirror i v wd = mirrored_data i v wd.
Proof.
  apply map_ext. intros [p w]. cbn [fst snd]. f_equal. apply functional_extensionality. intros k.
  unfold mirror_pt, mirrored. destruct (Nat.eqb_spec k i), (Nat.eq_dec k i); try reflexivity; contradiction.
Qed.

Lemma outside_within r x i b : nth i r None = Some b -> (outside b (x i) = false <-> within r x i).
Proof.
  intros Hb. destruct b as [lo hi]. unfold outside, within. cbn [fst snd]. rewrite Bool.orb_false_iff. split.
  - intros [H1 H2] lo' hi' E. rewrite Hb in E. injection E as <- <-. split; intros v ->.
    + apply Rltb_false in H1. exact H1.
    + apply Rltb_false in H2. exact H2.
  - intros H. destruct (H lo hi Hb) as [H1 H2]. split.
    + destruct lo; [apply Rltb_false; auto|reflexivity].
    + destruct hi; [apply Rltb_false; auto|reflexivity].
Qed.
Lemma within_none r x i : nth i r None = None -> within r x i.
Proof. intros H lo hi E. rewrite H in E. discriminate E. Qed.

Fixpoint inb (x : pt) (i : nat) (r : reflspec) : bool :=
  match r with
  | [] => true
  | None :: t => inb x (S i) t
  | Some b :: t => andb (negb (outside b (x i))) (inb x (S i) t)
  end.
Lemma nth_pre (r0 : reflspec) o t : nth (length r0) (r0 ++ o :: t) None = o.
Proof. rewrite app_nth2 by lia. rewrite Nat.sub_diag. reflexivity. Qed.
Lemma inb_within x : forall t r0, inb x (length r0) t = true <-> within_from (r0 ++ t) x (length r0).
Proof.
  induction t as [|o t IH]; intros r0.
  - cbn [inb]. split; [|reflexivity]. intros _ j Hj. apply within_none. apply nth_overflow. rewrite app_nil_r. exact Hj.
  - pose proof (nth_pre r0 o t) as En. specialize (IH (r0 ++ [o])). rewrite <- app_assoc in IH. cbn [app] in IH.
    rewrite app_length in IH. cbn [length] in IH. rewrite Nat.add_1_r in IH.
    assert (HS : within_from (r0 ++ o :: t) x (length r0) <-> within (r0 ++ o :: t) x (length r0) /\ within_from (r0 ++ o :: t) x (S (length r0))).
    { split.
      - intros H. split; [apply H; lia|]. intros j Hj. apply H. lia.
      - intros [H1 H2] j Hj. destruct (Nat.eq_dec j (length r0)) as [->|]; [exact H1|apply H2; lia]. }
    rewrite HS, <- IH. destruct o as [b|]; cbn [inb].
    + rewrite andb_true_iff, negb_true_iff, (outside_within _ x _ b En). reflexivity.
    + split; [intros H; split; [apply within_none; exact En|exact H]|intros [_ H]; exact H].
Qed.

(** What the dimension [i] contributes. *)
Definition contr (ev : list (pt * R) -> R) (wd : list (pt * R)) (x : pt) (i : nat) (t : reflspec) : R :=
  match t with
  | [] => 0
  | o :: _ => if inb x i t then sumf (fun v => ev (mirrored_data i v wd)) (boundaries o) else 0
  end.
Lemma loop_value ev wd x : forall t i acc,
  reflect_loop ev wd x i t acc =
  (if inb x i t then acc else 0) + rsum (length t) (fun k => contr ev wd x (i + k) (skipn k t)).
Proof.
  induction t as [|o t IH]; intros i acc.
  - cbn [reflect_loop inb length rsum]. ring.
  - cbn [length]. rewrite rsum_shift. cbn [skipn]. rewrite Nat.add_0_r.
    assert (E : rsum (length t) (fun k => contr ev wd x (i + S k) (skipn k t)) = rsum (length t) (fun k => contr ev wd x (S i + k) (skipn k t))).
    { apply rsum_ext. intros k _. f_equal. lia. }
    rewrite E. destruct o as [[lo hi]|]; cbn [reflect_loop contr boundaries]; rewrite IH.
    + assert (EB : sumf (fun v => ev (mirrored_data i v wd)) ((match lo with Some v => [v] | None => [] end) ++ (match hi with Some v => [v] | None => [] end))
        = opt_term (fun loc => ev (mirror i loc wd)) lo + opt_term (fun loc => ev (mirror i loc wd)) hi).
      { rewrite sumf_app. f_equal; destruct lo, hi; cbn [opt_term]; unfold sumf; cbn [map lsum]; rewrite ?mirror_mirrored; ring. }
      rewrite EB. cbn [inb fst snd]. destruct (outside (lo, hi) (x i)); cbn [negb andb]; destruct (inb x (S i) t); ring.
    + cbn [inb]. unfold sumf. cbn [map lsum]. destruct (inb x i (None :: t)), (inb x (S i) t); ring.
Qed.
Lemma contr_nth ev wd x (r : reflspec) i : (i < length r)%nat ->
  (within_from r x i -> contr ev wd x i (skipn i r) = sumf (fun v => ev (mirrored_data i v wd)) (boundaries (nth i r None)))
  /\ (~ within_from r x i -> contr ev wd x i (skipn i r) = 0).
Proof.
  intros Hi. destruct (nth_split r None Hi) as [r0 [t [Er El]]]. set (o := nth i r None) in *.
  assert (Es : skipn i r = o :: t).
  { rewrite Er, skipn_app, El, Nat.sub_diag. rewrite skipn_all2 by lia. reflexivity. }
  rewrite Es. cbn [contr]. pose proof (inb_within x (o :: t) r0) as HW. rewrite El, <- Er in HW. split; intros H.
  - apply HW in H. rewrite H. reflexivity.
  - destruct (inb x i (o :: t)) eqn:E; [|reflexivity]. contradiction (H (proj1 HW eq_refl)).
Qed.

Lemma top_reflected n data ws d M refl K N (prob : bool) (r : reflspec) : (1 <= n)%nat ->
  built_kde n data ws d M refl K -> is_inverse n M N -> length r = n ->
  exists Z f, 0 < Z /\ (forall base, is_tintN n (fun y => spec_prof d (quad n N y)) base Z)
    /\ kde_density K prob n (Some r) PNone = Ok f
    /\ forall x, exists s0 s, f x = mass prob ws / lsum ws * ((s0 + rsum n s) / Z)
         /\ (within_from r x 0 -> s0 = spec_sum d n N (combine data ws) x) /\ (~ within_from r x 0 -> s0 = 0)
         /\ forall i, (i < n)%nat ->
              (within_from r x i -> s i = sumf (fun v => spec_sum d n N (mirrored_data i v (combine data ws)) x) (boundaries (nth i r None)))
              /\ (~ within_from r x i -> s i = 0).
Proof.
  intros Hn HB HN HL. destruct (built_inv _ _ _ _ _ _ _ HB) as (En & Ed & Hne & Er & Ew & Hl & Hnn & Hp & Et & Ek & Hs & Hpd).
  destruct (density_refl_exists _ _ _ _ _ _ _ prob r HB HL) as [f0 Hf0].
  destruct (density_refl_as _ _ _ _ _ _ _ prob _ _ HB HL Hf0) as [g [Hg Eg]].
  destruct (kernel_density_plain d n M data (Some ws) Hs Hpd) as [N' [W [HN' [HW [HsN [Hinv' [Hd Hk]]]]]]].
  { intros w' E; injection E as <-; exact Hl. }
  pose proof (inverse_unique n M N' N Hinv' HN) as Hag. pose proof (sqrt_mdet_pos n M Hs Hpd) as Hsq.
  exists (sqrt (Rabs (mdet n M)) * dist_norm d n), f0. split; [|split; [|split; [exact Hf0|]]].
  - apply Rmult_lt_0_compat; [exact Hsq|apply dist_norm_pos, Hn].
  - intros base. pose proof (prof_quad_integral d n M N' W (fun _ => 0) base Hn HsN HW Hsq Hd) as H.
    apply tintN_ext with (2 := H). intros x.
    rewrite (white_dist2_quad n N' W) by assumption. rewrite prof_spec. f_equal.
    apply quad_ext; [exact Hag|]. intros i _. unfold psub. ring.
  - intros x. destruct (kernel_density_inv _ _ _ _ _ _ _ _ Hg) as [n1 [M1 [N1 [W1 [w1 [[E1 E2] [_ [H3 [H4 [E5 [_ E6]]]]]]]]]]].
    cbn [k_ndim k_matrix k_dist] in *. subst n1 M1 w1. rewrite HN' in H3. injection H3 as <-. rewrite HW in H4. injection H4 as <-.
    set (ev := fun wd => eval_numba n W (prof d) wd x) in *.
    assert (EV : forall wd, ev wd = spec_sum d n N wd x).
    { intros wd. unfold ev. rewrite (eval_numba_spec d n N') by assumption. apply spec_sum_ext, Hag. }
    exists (if inb x 0 r then ev (combine data ws) else 0), (fun i => contr ev (combine data ws) x i (skipn i r)).
    split; [|split; [|split]].
    + rewrite Eg, scaled_val by exact Hp. rewrite E6. f_equal. unfold Rdiv. f_equal. fold ev. rewrite loop_value, HL. reflexivity.
    + intros H. apply (inb_within x r []) in H. cbn [length] in H. rewrite H. apply EV.
    + intros H. destruct (inb x 0 r) eqn:E; [|reflexivity]. contradiction H. apply (inb_within x r []). exact E.
    + intros i Hi. rewrite <- HL in Hi. destruct (contr_nth ev (combine data ws) x r i Hi) as [H1 H2]. split; [|exact H2].
      intros H. rewrite (H1 H). apply sumf_ext. intros v _. apply EV.
Qed.

Lemma boundaries_iff (r : reflspec) i v : In v (boundaries (nth i r None)) <-> is_boundary r i v.
Proof.
  unfold is_boundary, boundaries. destruct (nth i r None) as [[lo hi]|]; split.
  - intros H. exists lo, hi. split; [reflexivity|]. apply in_app_or in H.
    destruct H as [H|H]; [destruct lo|destruct hi]; try contradiction; destruct H as [->|[]]; auto.
  - intros [lo' [hi' [E H]]]. injection E as <- <-. apply in_or_app.
    destruct H as [-> | ->]; [left|right]; left; reflexivity.
  - intros [].
  - intros [? [? [E _]]]. discriminate E.
Qed.
Lemma spec_prof_nonneg' d y : 0 <= spec_prof d y.
Proof. rewrite <- prof_spec. apply prof_nonneg. Qed.
Lemma spec_sum_pos d n N wd x : (forall p w, In (p, w) wd -> 0 <= w) ->
  0 <= spec_sum d n N wd x /\ (0 < spec_sum d n N wd x <-> exists p w, In (p, w) wd /\ 0 < w /\ 0 < spec_prof d (quad n N (psub x p))).
Proof.
  intros Hw. assert (Hge : forall dw, In dw wd -> 0 <= snd dw * spec_prof d (quad n N (psub x (fst dw)))).
  { intros [p w] H. cbn [fst snd]. apply Rmult_le_pos; [eapply Hw; exact H|apply spec_prof_nonneg']. }
  split; [apply sumf_nonneg; exact Hge|]. split.
  - intros H. induction wd as [|[p w] wd IH]; [unfold spec_sum in H; cbn in H; lra|].
    unfold spec_sum in H. rewrite sumf_cons in H. cbn [fst snd] in H.
    destruct (Rlt_dec 0 (w * spec_prof d (quad n N (psub x p)))) as [Hp|Hp].
    + exists p, w. split; [left; reflexivity|]. pose proof (Hw p w (or_introl eq_refl)) as H1. pose proof (spec_prof_nonneg' d (quad n N (psub x p))) as H2.
      split; (destruct (Rle_lt_or_eq_dec _ _ H1), (Rle_lt_or_eq_dec _ _ H2); nra).
    + destruct IH as [p' [w' [Hi Hq]]].
      * intros p' w' Hi. apply (Hw p' w'). right. exact Hi.
      * intros dw Hi. apply Hge. right. exact Hi.
      * unfold spec_sum. pose proof (Hge (p, w) (or_introl eq_refl)) as H1. cbn [fst snd] in H1. lra.
      * exists p', w'. split; [right; exact Hi|exact Hq].
  - intros [p [w [Hi [H1 H2]]]]. pose proof (sumf_ge_term (fun dw => snd dw * spec_prof d (quad n N (psub x (fst dw)))) wd (p, w)) as H3.
    specialize (H3 Hge Hi). cbn [fst snd] in H3. unfold spec_sum. nra.
Qed.
Lemma sumf_pos_ex A (f : A -> R) l : (forall a, In a l -> 0 <= f a) -> (0 < sumf f l <-> exists a, In a l /\ 0 < f a).
Proof.
  intros Hge. split.
  - intros H. induction l as [|a l IH]; [unfold sumf in H; cbn in H; lra|]. rewrite sumf_cons in H.
    destruct (Rlt_dec 0 (f a)); [exists a; split; [left; reflexivity|assumption]|].
    destruct IH as [b [Hb Hp]]; [intros; apply Hge; right; assumption|pose proof (Hge a (or_introl eq_refl)); lra|].
    exists b. split; [right; exact Hb|exact Hp].
  - intros [a [Ha Hp]]. pose proof (sumf_ge_term f l a Hge Ha). lra.
Qed.
Lemma rsum_pos_ex n f : (forall k, (k < n)%nat -> 0 <= f k) -> (0 < rsum n f <-> exists k, (k < n)%nat /\ 0 < f k).
Proof.
  intros Hge. split.
  - intros H. induction n as [|n IH]; cbn [rsum] in H; [lra|].
    destruct (Rlt_dec 0 (f n)); [exists n; split; [lia|assumption]|].
    destruct IH as [k [Hk Hp]]; [intros; apply Hge; lia|pose proof (Hge n ltac:(lia)); lra|]. exists k. split; [lia|exact Hp].
  - intros [k [Hk Hp]]. pose proof (rsum_ge_term n f k Hge Hk). lra.
Qed.

Lemma top_positive_outside n data ws d M refl K N (prob : bool) (r : reflspec) f x i : (1 <= n)%nat ->
  built_kde n data ws d M refl K -> is_inverse n M N -> length r = n ->
  kde_density K prob n (Some r) PNone = Ok f -> ~ within r x i ->
  0 <= f x
  /\ (0 < f x <-> exists j v p w, (i < j < n)%nat /\ within_from r x j /\ is_boundary r j v
       /\ In (p, w) (combine data ws) /\ 0 < w /\ 0 < spec_prof d (quad n N (psub x (mirrored j v p)))).
Proof.
  intros Hn HB HN HL HD Hx. destruct (built_inv _ _ _ _ _ _ _ HB) as (En & Ed & Hne & Er & Ew & Hl & Hnn & Hp & Et & Ek & Hs & Hpd).
  destruct (top_reflected _ _ _ _ _ _ _ N prob r Hn HB HN HL) as [Z [f' [HZ [_ [HD' HF]]]]]. rewrite HD in HD'. injection HD' as <-.
  destruct (HF x) as [s0 [s [Ef [_ [H0 HS]]]]].
  assert (Hnf : forall j, (j <= i)%nat -> ~ within_from r x j) by (intros j Hj H; apply Hx, H, Hj).
  rewrite (H0 (Hnf 0%nat ltac:(lia))), Rplus_0_l in Ef.
  assert (Hwm : forall j v p w, In (p, w) (mirrored_data j v (combine data ws)) -> 0 <= w).
  { intros j v p w H. apply in_map_iff in H. destruct H as [[p' w'] [E H]]. cbn [fst snd] in E. injection E as _ <-.
    apply Hnn. apply (in_combine_r _ _ _ _ H). }
  assert (Hdec : forall j, within_from r x j \/ ~ within_from r x j).
  { intros j. destruct (Compare_dec.le_lt_dec j (length r)) as [Hj|Hj].
    - rewrite <- (firstn_skipn j r). pose proof (inb_within x (skipn j r) (firstn j r)) as H. rewrite firstn_length_le in H by exact Hj.
      destruct (inb x j (skipn j r)); [left; apply H; reflexivity|right; intros H1; apply H in H1; discriminate H1].
    - left. intros k Hk. apply within_none, nth_overflow. lia. }
  assert (Hge : forall j, (j < n)%nat -> 0 <= s j).
  { intros j Hj. destruct (HS j Hj) as [H1 H2]. destruct (Hdec j) as [H|H]; [|rewrite (H2 H); lra].
    rewrite (H1 H). apply sumf_nonneg. intros v _. apply spec_sum_pos. intros p w Hi. apply (Hwm _ _ _ _ Hi). }
  assert (Hm : 0 < mass prob ws) by (unfold mass; destruct prob; lra).
  assert (Hc : 0 < mass prob ws / lsum ws / Z) by (apply Rdiv_lt_0_compat; [apply Rdiv_lt_0_compat; assumption|exact HZ]).
  assert (Ef' : f x = mass prob ws / lsum ws / Z * rsum n s) by (rewrite Ef; field; split; lra).
  assert (Hr : 0 <= rsum n s) by (apply rsum_nonneg; exact Hge).
  split; [rewrite Ef'; apply Rmult_le_pos; lra|].
  assert (E1 : 0 < f x <-> 0 < rsum n s).
  { rewrite Ef'. split; intros H; [|apply Rmult_lt_0_compat; assumption]. destruct (Rle_lt_or_eq_dec _ _ Hr) as [H1|H1]; [exact H1|]. rewrite <- H1 in H. lra. }
  rewrite E1, (rsum_pos_ex n s Hge). split.
  - intros [j [Hj Hp']]. destruct (HS j Hj) as [H1 H2]. destruct (Hdec j) as [H|H]; [|rewrite (H2 H) in Hp'; lra].
    assert (Hij : (i < j)%nat) by (destruct (Compare_dec.le_lt_dec j i) as [Hle|]; [contradiction (Hnf j Hle H)|assumption]).
    rewrite (H1 H) in Hp'. apply sumf_pos_ex in Hp'; [|intros v _; apply spec_sum_pos; intros p w Hi; apply (Hwm _ _ _ _ Hi)].
    destruct Hp' as [v [Hv Hp']]. apply spec_sum_pos in Hp'; [|intros p w Hi; apply (Hwm _ _ _ _ Hi)].
    destruct Hp' as [p [w [Hi [Hw Hq]]]]. apply in_map_iff in Hi. destruct Hi as [[p' w'] [E Hi]]. cbn [fst snd] in E. injection E as <- <-.
    exists j, v, p', w'. split; [lia|]. split; [exact H|]. split; [apply boundaries_iff; exact Hv|auto].
  - intros [j [v [p [w [Hij [H [Hv [Hi [Hw Hq]]]]]]]]]. exists j. split; [lia|]. destruct (HS j ltac:(lia)) as [H1 _]. rewrite (H1 H).
    apply sumf_pos_ex; [intros v' _; apply spec_sum_pos; intros p' w' Hi'; apply (Hwm _ _ _ _ Hi')|].
    exists v. split; [apply boundaries_iff; exact Hv|]. apply spec_sum_pos; [intros p' w' Hi'; apply (Hwm _ _ _ _ Hi')|].
    exists (mirrored j v p), w. split; [|auto]. apply in_map_iff. exists (p, w). split; [reflexivity|exact Hi].
Qed.

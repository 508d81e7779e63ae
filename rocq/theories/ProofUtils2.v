(** Proofs about quantiles. *)
From Coq Require Import Permutation.
From Verif Require Import Base ModelLinAlg ModelKernels ModelKDE ModelInterp ModelResample ModelUtils SpecUtils ProofInterp ProofUtils.
Open Scope R_scope.
Notation length := List.length.

Lemma vget_cons_S a l i : vget (a :: l) (S i) = vget l i.
Proof. reflexivity. Qed.

Lemma cumsum1_from_length l : forall acc, length (cumsum1_from acc l) = length l.
Proof. induction l as [|a l IH]; intros acc; cbn; [reflexivity|]. rewrite IH. reflexivity. Qed.
Lemma cumsum1_length l : length (cumsum1 l) = length l.
Proof. apply cumsum1_from_length. Qed.
Lemma cumsum1_from_nth l : forall acc i, (i < length l)%nat -> vget (cumsum1_from acc l) i = acc + rsum (S i) (vget l).
Proof.
  induction l as [|a l IH]; intros acc i Hi; [cbn in Hi; lia|]. destruct i as [|i].
  - cbn. ring.
  - cbn [cumsum1_from]. rewrite vget_cons_S, IH by (cbn in Hi; lia).
    rewrite (rsum_shift (S i)). unfold vget at 2. cbn [nth].
    rewrite (rsum_ext (S i) (fun k => vget (a :: l) (S k)) (vget l)) by (intros; reflexivity). ring.
Qed.
Lemma cumsum1_nth l i : (i < length l)%nat -> vget (cumsum1 l) i = rsum (S i) (vget l).
Proof. intros H. unfold cumsum1. rewrite cumsum1_from_nth by assumption. ring. Qed.

Lemma lsum_rsum l : lsum l = rsum (length l) (vget l).
Proof.
  induction l as [|a l IH]; [reflexivity|]. cbn [length lsum]. rewrite rsum_shift, IH. reflexivity.
Qed.

Lemma sumf_rsum {A} (f : A -> R) d l : sumf f l = rsum (length l) (fun i => f (nth i l d)).
Proof.
  induction l as [|a l IH]; [reflexivity|]. rewrite sumf_cons, IH. cbn [length]. rewrite rsum_shift. reflexivity.
Qed.


Lemma all_pos_nth ws i : all_pos ws -> (i < length ws)%nat -> 0 < vget ws i.
Proof. intros H Hi. apply H. apply nth_In. exact Hi. Qed.
Lemma all_pos_sum ws : all_pos ws -> ws <> [] -> 0 < lsum ws.
Proof.
  intros H Hne. destruct ws as [|w ws]; [contradiction|]. cbn [lsum].
  assert (0 < w) by (apply H; left; reflexivity). assert (0 <= lsum ws) by (apply lsum_nonneg; intros x Hx; left; apply H; right; exact Hx). lra.
Qed.

Lemma vget_map_combine (g : R * R -> R) l m i : (i < length l)%nat -> (i < length m)%nat ->
  vget (map g (combine l m)) i = g (vget l i, vget m i).
Proof.
  revert m i. induction l as [|a l IH]; intros m i Hl Hm; [cbn in Hl; lia|]. destruct m as [|b m]; [cbn in Hm; lia|].
  destruct i as [|i]; [reflexivity|]. cbn [combine map]. rewrite !vget_cons_S. apply IH; cbn in *; lia.
Qed.

Lemma wquantiles_nth vw i : (i < length vw)%nat ->
  vget (wquantiles vw) i = (rsum i (vget (map snd vw)) + vget (map snd vw) i / 2) / lsum (map snd vw).
Proof.
  intros Hi. unfold wquantiles. cbv zeta.
  rewrite vget_map_combine by (rewrite ?cumsum1_length, map_length; exact Hi). cbn [fst snd].
  rewrite cumsum1_nth by (rewrite map_length; exact Hi). cbn [rsum]. apply (f_equal (fun z => z / lsum (map snd vw))). field.
Qed.

Lemma wquantiles_incr vw : vw <> [] -> all_pos (map snd vw) -> increasing (vget (wquantiles vw)) (length vw - 1).
Proof.
  intros Hne Hp. assert (length vw <> 0)%nat by (destruct vw; [contradiction|cbn; lia]).
  assert (HW : 0 < lsum (map snd vw)) by (apply all_pos_sum; [assumption|intros E; apply map_eq_nil in E; contradiction]).
  apply step_incr. intros i Hi. rewrite !wquantiles_nth by lia. apply Rmult_lt_compat_r; [apply Rinv_0_lt_compat, HW|].
  cbn [rsum]. assert (0 < vget (map snd vw) i) by (apply all_pos_nth; [assumption|rewrite map_length; lia]).
  assert (0 < vget (map snd vw) (S i)) by (apply all_pos_nth; [assumption|rewrite map_length; lia]). lra.
Qed.

Lemma sorted_nondecr vw : sorted_fst vw -> nondecreasing (vget (map fst vw)) (length vw - 1).
Proof.
  intros H i j Hij Hj. destruct vw as [|a vw]; [cbn; replace i with O by (cbn in Hj; lia); replace j with O by (cbn in Hj; lia); lra|].
  apply H; [exact Hij|]. rewrite map_length. cbn in *. lia.
Qed.

Lemma np_interp_zero x y v : np_interp x y 0 v = y O.
Proof.
  unfold np_interp. destruct (Rltb_spec v (x O)); [reflexivity|]. destruct (Rltb_spec (x O) v); [reflexivity|].
  unfold interp. replace (interp_bin x 0 v) with O by (unfold interp_bin; lia). replace (v - x O) with 0 by lra. ring.
Qed.


Lemma quantile_sorted_range vw p : vw <> [] -> all_pos (map snd vw) -> sorted_fst vw ->
  vget (map fst vw) 0 <= quantile_sorted vw p <= vget (map fst vw) (length vw - 1).
Proof.
  intros Hne Hp Hs. unfold quantile_sorted. destruct (Nat.eq_dec (length vw - 1) 0) as [E|E].
  - rewrite E, np_interp_zero. lra.
  - apply np_interp_range; [lia|apply wquantiles_incr; assumption|apply sorted_nondecr; assumption].
Qed.
Lemma quantile_sorted_mono vw p q : vw <> [] -> all_pos (map snd vw) -> sorted_fst vw -> p <= q ->
  quantile_sorted vw p <= quantile_sorted vw q.
Proof.
  intros Hne Hp Hs Hpq. unfold quantile_sorted. destruct (Nat.eq_dec (length vw - 1) 0) as [E|E].
  - rewrite E, !np_interp_zero. lra.
  - apply np_interp_mono; [lia|apply wquantiles_incr; assumption|apply sorted_nondecr; assumption|exact Hpq].
Qed.

Lemma quantile_sorted_scale c vw p : 0 < c -> all_pos (map snd vw) ->
  quantile_sorted (map (fun xw => (fst xw, c * snd xw)) vw) p = quantile_sorted vw p.
Proof.
  intros Hc Hp. unfold quantile_sorted. rewrite map_length, map_map. cbn [fst].
  replace (wquantiles (map (fun xw => (fst xw, c * snd xw)) vw)) with (wquantiles vw); [reflexivity|].
  destruct vw as [|a vw']; [reflexivity|]. set (vw := a :: vw') in *.
  assert (HW : 0 < lsum (map snd vw)) by (apply all_pos_sum; [assumption|unfold vw; discriminate]).
  apply nth_ext with (d := 0) (d' := 0).
  { unfold wquantiles. cbv zeta. rewrite !map_length, !combine_length, !cumsum1_length, !map_length. reflexivity. }
  intros i Hi. assert (Hi' : (i < length vw)%nat).
  { unfold wquantiles in Hi. cbv zeta in Hi. rewrite map_length, combine_length, cumsum1_length, map_length in Hi. lia. }
  change (vget (wquantiles vw) i = vget (wquantiles (map (fun xw => (fst xw, c * snd xw)) vw)) i).
  rewrite wquantiles_nth by exact Hi'. rewrite wquantiles_nth by (rewrite map_length; exact Hi').
  assert (EW : map snd (map (fun xw : R * R => (fst xw, c * snd xw)) vw) = map (Rmult c) (map snd vw)) by (rewrite !map_map; reflexivity).
  rewrite EW, lsum_scal.
  assert (EV : forall k, vget (map (Rmult c) (map snd vw)) k = c * vget (map snd vw) k).
  { intros k. unfold vget. rewrite <- (map_nth (Rmult c)). rewrite Rmult_0_r. reflexivity. }
  rewrite EV, (rsum_ext i (vget (map (Rmult c) (map snd vw))) (fun k => c * vget (map snd vw) k)) by (intros; apply EV). rewrite rsum_scal. field. split; lra.
Qed.

(** Uniqueness of sorting when the keys are distinct. *)
Lemma sorted_fst_tail a l : sorted_fst (a :: l) -> sorted_fst l.
Proof. intros H i j Hij Hj. apply (H (S i) (S j)); cbn; lia. Qed.
Lemma sorted_fst_head a l x : sorted_fst (a :: l) -> In x l -> fst a <= fst x.
Proof.
  intros H Hx. apply (In_nth _ _ (0, 0)) in Hx. destruct Hx as [i [Hi <-]].
  specialize (H O (S i) ltac:(lia)). cbn [map length nth] in H. rewrite map_length in H. specialize (H ltac:(lia)).
  rewrite (nth_indep _ 0 (fst (0, 0))) in H by (rewrite map_length; exact Hi). rewrite map_nth in H. exact H.
Qed.
Lemma sort_unique l m : Permutation l m -> sorted_fst l -> sorted_fst m -> NoDup (map fst l) -> l = m.
Proof.
  revert m. induction l as [|a l IH]; intros m Hp Hl Hm Hd.
  - apply Permutation_nil in Hp. auto.
  - destruct m as [|b m]; [apply Permutation_sym, Permutation_nil in Hp; discriminate Hp|].
    assert (E : a = b).
    { assert (Ha : In a (b :: m)) by (eapply Permutation_in; [exact Hp|left; reflexivity]).
      assert (Hb : In b (a :: l)) by (eapply Permutation_in; [apply Permutation_sym, Hp|left; reflexivity]).
      destruct Ha as [Ha|Ha]; [auto|]. destruct Hb as [Hb|Hb]; [auto|].
      pose proof (sorted_fst_head _ _ _ Hm Ha). pose proof (sorted_fst_head _ _ _ Hl Hb).
      exfalso. cbn [map] in Hd. inversion Hd as [|y ys Hn Hnd]. apply Hn. apply in_map_iff. exists b. split; [lra|exact Hb]. }
    subst b. f_equal. apply IH; [eapply Permutation_cons_inv; exact Hp|eapply sorted_fst_tail; exact Hl|eapply sorted_fst_tail; exact Hm|].
    cbn [map] in Hd. inversion Hd; assumption.
Qed.

(* ---------------------------------------------------------- the function *)

Lemma quantiles_run sorter values ps ws : values <> [] -> length ws = length values -> fractions ps ->
  quantiles sorter values (Some ps) (Some ws) false = Ok (map (quantile_sorted (sorter (combine values ws))) ps).
Proof.
  intros Hne Hl Hf. unfold quantiles.
  assert (E : forallb (fun p => andb (Rleb 0 p) (Rleb p 1)) ps = true).
  { apply forallb_forall. intros p Hp. destruct (Hf p Hp). apply andb_true_iff. split; apply Rleb_true; assumption. }
  rewrite E. cbn [negb andb]. rewrite Hl, Nat.ltb_irrefl. destruct values; [contradiction|reflexivity].
Qed.

Lemma quantiles_unweighted sorter values ps b :
  quantiles sorter values (Some ps) None b = quantiles sorter values (Some ps) (Some (map (fun _ => 1) values)) b.
Proof. reflexivity. Qed.

Lemma quantiles_presorted values ps ws : nondecr_list values -> values <> [] -> length ws = length values -> fractions ps ->
  forall sorter, quantiles sorter values (Some ps) (Some ws) true = quantiles (fun l => l) values (Some ps) (Some ws) false.
Proof.
  intros Hs Hne Hl Hf sorter. rewrite quantiles_run by assumption. unfold quantiles.
  assert (E : forallb (fun p => andb (Rleb 0 p) (Rleb p 1)) ps = true).
  { apply forallb_forall. intros p Hp. destruct (Hf p Hp). apply andb_true_iff. split; apply Rleb_true; assumption. }
  rewrite E. cbn [negb andb]. rewrite Hl, Nat.eqb_refl, Nat.ltb_irrefl. cbn. destruct values; [contradiction|reflexivity].
Qed.

Lemma map_fst_combine (l m : list R) : length m = length l -> map fst (combine l m) = l.
Proof. revert m. induction l as [|a l IH]; intros [|b m] H; try discriminate H; [reflexivity|]. cbn. rewrite IH by (injection H; auto). reflexivity. Qed.
Lemma map_snd_combine (l m : list R) : length m = length l -> map snd (combine l m) = m.
Proof. revert m. induction l as [|a l IH]; intros [|b m] H; try discriminate H; [reflexivity|]. cbn. rewrite IH by (injection H; auto). reflexivity. Qed.

Lemma sorter_facts sorter values ws : sorts sorter -> values <> [] -> length ws = length values -> all_pos ws ->
  let vw := sorter (combine values ws) in
  vw <> [] /\ all_pos (map snd vw) /\ sorted_fst vw /\ Permutation values (map fst vw) /\ Permutation ws (map snd vw).
Proof.
  intros Hs Hne Hl Hp vw. destruct (Hs (combine values ws)) as [HP HS]. fold vw in HP, HS.
  assert (P1 : Permutation values (map fst vw)) by (rewrite <- (map_fst_combine values ws Hl) at 1; apply Permutation_map, HP).
  assert (P2 : Permutation ws (map snd vw)) by (rewrite <- (map_snd_combine values ws Hl) at 1; apply Permutation_map, HP).
  split; [|split; [|auto]].
  - intros E. rewrite E in P1. apply Permutation_sym, Permutation_nil in P1. contradiction.
  - intros w Hw. apply Hp. eapply Permutation_in; [apply Permutation_sym, P2|exact Hw].
Qed.

Theorem quantiles_total sorter values ps ws : values <> [] -> length ws = length values -> fractions ps ->
  exists qs, quantiles sorter values (Some ps) (Some ws) false = Ok qs /\ length qs = length ps.
Proof. intros. rewrite quantiles_run by assumption. eexists. split; [reflexivity|apply map_length]. Qed.

(** Between the smallest and the largest value. *)
Theorem quantiles_in_range sorter values ps ws qs lo hi : sorts sorter -> length ws = length values -> all_pos ws ->
  fractions ps -> min_of values lo -> max_of values hi ->
  quantiles sorter values (Some ps) (Some ws) false = Ok qs -> forall q, In q qs -> lo <= q <= hi.
Proof.
  intros Hs Hl Hp Hf Hlo Hhi HQ q Hq.
  assert (Hne : values <> []) by (intros ->; destruct Hlo as [[] _]).
  rewrite quantiles_run in HQ by assumption. injection HQ as <-. apply in_map_iff in Hq. destruct Hq as [p [<- _]].
  destruct (sorter_facts sorter values ws Hs Hne Hl Hp) as (H1 & H2 & H3 & H4 & _). set (vw := sorter (combine values ws)) in *.
  pose proof (quantile_sorted_range vw p H1 H2 H3).
  assert (L : (0 < length vw)%nat) by (destruct vw; [contradiction|cbn; lia]).
  assert (A : forall i, (i < length vw)%nat -> In (vget (map fst vw) i) values).
  { intros i Hi. eapply Permutation_in; [apply Permutation_sym, H4|]. apply nth_In. rewrite map_length. exact Hi. }
  pose proof (proj2 Hlo _ (A O L)). pose proof (proj2 Hhi _ (A (length vw - 1)%nat ltac:(lia))). lra.
Qed.

(** Non-decreasing in the fraction. *)
Theorem quantiles_monotone sorter values ps ws qs : sorts sorter -> length ws = length values -> all_pos ws -> fractions ps ->
  quantiles sorter values (Some ps) (Some ws) false = Ok qs ->
  forall i j, (i < length ps)%nat -> (j < length ps)%nat -> nth i ps 0 <= nth j ps 0 -> nth i qs 0 <= nth j qs 0.
Proof.
  intros Hs Hl Hp Hf HQ i j Hi Hj Hij.
  destruct values as [|v0 values]; [unfold quantiles in HQ; destruct (negb _); [discriminate HQ|]; cbn in HQ; destruct ws; discriminate HQ|].
  assert (Hne : v0 :: values <> []) by discriminate. set (vs := v0 :: values) in *.
  rewrite quantiles_run in HQ by assumption. injection HQ as <-.
  destruct (sorter_facts sorter vs ws Hs Hne Hl Hp) as (H1 & H2 & H3 & _).
  set (g := quantile_sorted (sorter (combine vs ws))).
  assert (EN : forall k, (k < length ps)%nat -> nth k (map g ps) 0 = g (nth k ps 0)).
  { intros k Hk. rewrite (nth_indep _ 0 (g 0)) by (rewrite map_length; exact Hk). apply map_nth. }
  fold g. rewrite !EN by assumption. unfold g.
  apply quantile_sorted_mono; assumption.
Qed.

(** Order independence for distinct values. *)
Theorem quantiles_order sorter sorter' values ws values' ws' ps : sorts sorter -> sorts sorter' ->
  length ws = length values -> length ws' = length values' ->
  Permutation (combine values ws) (combine values' ws') -> NoDup values ->
  quantiles sorter values (Some ps) (Some ws) false = quantiles sorter' values' (Some ps) (Some ws') false.
Proof.
  intros Hs Hs' Hl Hl' HP Hd.
  assert (PV : Permutation values values') by (rewrite <- (map_fst_combine values ws Hl), <- (map_fst_combine values' ws' Hl'); apply Permutation_map, HP).
  assert (E : sorter (combine values ws) = sorter' (combine values' ws')).
  { destruct (Hs (combine values ws)) as [P1 S1]. destruct (Hs' (combine values' ws')) as [P2 S2].
    apply sort_unique; [|assumption..|].
    - eapply Permutation_trans; [apply Permutation_sym, P1|]. eapply Permutation_trans; [exact HP|exact P2].
    - eapply Permutation_NoDup; [|exact Hd]. rewrite <- (map_fst_combine values ws Hl) at 1. apply Permutation_map, P1. }
  unfold quantiles. destruct (negb _); [reflexivity|]. cbn [andb]. rewrite Hl, Hl', !Nat.ltb_irrefl.
  destruct values as [|a values], values' as [|a' values']; [reflexivity| | |].
  - apply Permutation_nil in PV. discriminate PV.
  - apply Permutation_sym, Permutation_nil in PV. discriminate PV.
  - rewrite E. reflexivity.
Qed.

(** Rescaling the weights. *)
Theorem quantiles_rescale sorter sorter' values ws ps c : sorts sorter -> sorts sorter' -> length ws = length values -> all_pos ws ->
  0 < c -> NoDup values ->
  quantiles sorter values (Some ps) (Some (map (Rmult c) ws)) false = quantiles sorter' values (Some ps) (Some ws) false.
Proof.
  intros Hs Hs' Hl Hp Hc Hd. unfold quantiles. destruct (negb _); [reflexivity|]. cbn [andb].
  rewrite map_length, Hl, Nat.ltb_irrefl. destruct values as [|a values]; [reflexivity|]. set (vs := a :: values) in *.
  destruct (sorter_facts sorter' vs ws Hs' ltac:(discriminate) Hl Hp) as (H1 & H2 & H3 & H4 & H5).
  set (vw := sorter' (combine vs ws)) in *.
  assert (E : sorter (combine vs (map (Rmult c) ws)) = map (fun xw => (fst xw, c * snd xw)) vw).
  { destruct (Hs (combine vs (map (Rmult c) ws))) as [P1 S1].
    assert (EC : combine vs (map (Rmult c) ws) = map (fun xw : R * R => (fst xw, c * snd xw)) (combine vs ws)).
    { clear. revert ws. induction vs as [|x l IH]; intros [|w m]; try reflexivity. cbn. rewrite IH. reflexivity. }
    apply sort_unique.
    - eapply Permutation_trans; [apply Permutation_sym, P1|]. rewrite EC. apply Permutation_map. apply (Hs' (combine vs ws)).
    - exact S1.
    - unfold sorted_fst. rewrite map_map. cbn [fst]. exact H3.
    - eapply Permutation_NoDup; [|exact Hd]. rewrite <- (map_fst_combine vs (map (Rmult c) ws)) at 1 by (rewrite map_length; exact Hl). apply Permutation_map, P1. }
  rewrite E. f_equal. apply map_ext. intros p. apply (quantile_sorted_scale c vw p); assumption.
Qed.
(** With ties: the same sorting order (any order stable under rescaling). *)
Theorem quantiles_rescale_ties sorter values ws ps c : length ws = length values ->
  sorts sorter -> (forall l, sorter (map (fun xw => (fst xw, c * snd xw)) l) = map (fun xw => (fst xw, c * snd xw)) (sorter l)) ->
  all_pos ws -> 0 < c ->
  quantiles sorter values (Some ps) (Some (map (Rmult c) ws)) false = quantiles sorter values (Some ps) (Some ws) false.
Proof.
  intros Hl Hs Hc' Hp Hc. unfold quantiles. destruct (negb _); [reflexivity|]. cbn [andb].
  rewrite map_length, Hl, Nat.ltb_irrefl. destruct values as [|a values]; [reflexivity|]. set (vs := a :: values) in *.
  destruct (sorter_facts sorter vs ws Hs ltac:(discriminate) Hl Hp) as (H1 & H2 & H3 & H4 & H5).
  assert (EC : combine vs (map (Rmult c) ws) = map (fun xw : R * R => (fst xw, c * snd xw)) (combine vs ws)).
  { clear. revert ws. induction vs as [|x l IH]; intros [|w m]; try reflexivity. cbn. rewrite IH. reflexivity. }
  rewrite EC, Hc'. f_equal. apply map_ext. intros p. apply quantile_sorted_scale; assumption.
Qed.

(** The value at the centre of its own weight: with distinct values, asking for the fraction of weight
    below a value plus half its own weight returns that value. *)

Lemma sorted_below vw k : sorted_fst vw -> NoDup (map fst vw) -> (k < length vw)%nat ->
  sumf (fun xw : R * R => if Rltb (fst xw) (vget (map fst vw) k) then snd xw else 0) vw = rsum k (vget (map snd vw)).
Proof.
  intros Hs Hd Hk. rewrite (sumf_rsum _ (0, 0)).
  assert (F : forall i, fst (nth i vw (0, 0)) = vget (map fst vw) i) by (intros i; unfold vget; rewrite <- (map_nth fst); reflexivity).
  assert (G : forall i, snd (nth i vw (0, 0)) = vget (map snd vw) i) by (intros i; unfold vget; rewrite <- (map_nth snd); reflexivity).
  rewrite (rsum_trunc k (length vw)); [|lia|].
  2:{ intros i Hi. rewrite F. destruct (Rltb_spec (vget (map fst vw) i) (vget (map fst vw) k)) as [H|H]; [|reflexivity].
      exfalso. pose proof (Hs k i ltac:(lia) ltac:(rewrite map_length; lia)). unfold vget in *. lra. }
  apply rsum_ext. intros i Hi. rewrite F, G.
  destruct (Rltb_spec (vget (map fst vw) i) (vget (map fst vw) k)) as [H|H]; [reflexivity|]. exfalso.
  pose proof (Hs i k ltac:(lia) ltac:(rewrite map_length; lia)) as HH.
  assert (EQ : nth i (map fst vw) 0 = nth k (map fst vw) 0) by (unfold vget in *; lra).
  apply (proj1 (NoDup_nth (map fst vw) 0) Hd) in EQ; rewrite ?map_length; lia.
Qed.

Theorem quantiles_at_value sorter values ws k : sorts sorter -> length ws = length values -> all_pos ws -> NoDup values ->
  (k < length values)%nat ->
  let p := (weight_below (nth k values 0) values ws + nth k ws 0 / 2) / lsum ws in
  quantiles sorter values (Some [p]) (Some ws) false = Ok [nth k values 0].
Proof.
  intros Hs Hl Hp Hd Hk p.
  assert (Hne : values <> []) by (intros ->; cbn in Hk; lia).
  destruct (sorter_facts sorter values ws Hs Hne Hl Hp) as (H1 & H2 & H3 & H4 & H5).
  destruct (Hs (combine values ws)) as [HP _]. set (vw := sorter (combine values ws)) in *.
  assert (HdV : NoDup (map fst vw)) by (eapply Permutation_NoDup; eassumption).
  assert (HW : 0 < lsum ws) by (apply all_pos_sum; [assumption|intros ->; cbn in Hl; lia]).
  assert (Hin : In (nth k values 0, nth k ws 0) vw).
  { eapply Permutation_in; [exact HP|]. rewrite <- (combine_nth values ws k 0 0) by auto. apply nth_In. rewrite combine_length. lia. }
  apply (In_nth _ _ (0, 0)) in Hin. destruct Hin as [i [Hi Ei]].
  assert (F : vget (map fst vw) i = nth k values 0) by (unfold vget; change 0 with (fst (0, 0)) at 1; rewrite map_nth, Ei; reflexivity).
  assert (G : vget (map snd vw) i = nth k ws 0) by (unfold vget; change 0 with (snd (0, 0)) at 1; rewrite map_nth, Ei; reflexivity).
  assert (EP : p = vget (wquantiles vw) i).
  { unfold p. rewrite wquantiles_nth by exact Hi. rewrite G, <- (lsum_perm _ _ H5). unfold weight_below.
    rewrite (sumf_perm _ _ _ HP), <- F, sorted_below by assumption. reflexivity. }
  assert (HF : fractions [p]).
  { intros q [<-|[]]. unfold p.
    assert (0 <= nth k ws 0) by (left; apply Hp, nth_In; lia).
    assert (0 <= weight_below (nth k values 0) values ws).
    { apply sumf_nonneg. intros x Hx. destruct (Rltb _ _); [|lra]. destruct x as [x w]. apply in_combine_r in Hx. left. apply Hp, Hx. }
    assert (weight_below (nth k values 0) values ws + nth k ws 0 <= lsum ws).
    { unfold weight_below. rewrite (sumf_perm _ _ _ HP), <- F, sorted_below by assumption. rewrite (lsum_perm _ _ H5), <- G, lsum_rsum.
      rewrite map_length. change (rsum (S i) (vget (map snd vw)) <= rsum (length vw) (vget (map snd vw))).
      replace (length vw) with (S i + (length vw - S i))%nat by lia. rewrite rsum_app.
      assert (0 <= rsum (length vw - S i) (fun k0 => vget (map snd vw) (S i + k0))); [|lra].
      apply rsum_nonneg. intros q Hq. left. apply all_pos_nth; [assumption|rewrite map_length; lia]. }
    split; [apply Rmult_le_pos; [lra|left; apply Rinv_0_lt_compat, HW]|].
    apply (Rmult_le_reg_r (lsum ws)); [exact HW|]. unfold Rdiv. rewrite Rmult_assoc, Rinv_l by lra. lra. }
  rewrite quantiles_run by assumption. cbn [map]. do 2 f_equal. fold vw. rewrite EP. unfold quantile_sorted.
  destruct (Nat.eq_dec (length vw - 1) 0) as [E|E].
  - rewrite E, np_interp_zero. replace i with O in F by lia. exact F.
  - pose proof (wquantiles_incr vw H1 H2) as HI. pose proof (incr_nondecr _ _ HI) as HN.
    unfold np_interp. pose proof (HN O i ltac:(lia) ltac:(lia)). pose proof (HN i (length vw - 1)%nat ltac:(lia) ltac:(lia)).
    destruct (Rltb_spec (vget (wquantiles vw) i) (vget (wquantiles vw) 0)); [lra|].
    destruct (Rltb_spec (vget (wquantiles vw) (length vw - 1)) (vget (wquantiles vw) i)); [lra|].
    rewrite interp_knot by (try assumption; lia). exact F.
Qed.

(* ---------------------------------------------------------- a sorting function *)
Fixpoint insert (a : R * R) (l : list (R * R)) : list (R * R) :=
  match l with
  | [] => [a]
  | b :: r => if Rleb (fst a) (fst b) then a :: b :: r else b :: insert a r
  end.
Fixpoint isort (l : list (R * R)) : list (R * R) :=
  match l with [] => [] | a :: r => insert a (isort r) end.

Lemma sorted_fst_cons a l : (forall x, In x l -> fst a <= fst x) -> sorted_fst l -> sorted_fst (a :: l).
Proof.
  intros Ha Hl i j Hij Hj. cbn [map length] in *. rewrite map_length in Hj. destruct j as [|j].
  - replace i with O by lia. lra.
  - destruct i as [|i].
    + cbn [nth]. rewrite (nth_indep _ 0 (fst (0, 0))) by (rewrite map_length; lia). rewrite map_nth. apply Ha, nth_In. lia.
    + cbn [nth]. apply Hl; [lia|rewrite map_length; lia].
Qed.
Lemma insert_perm a l : Permutation (a :: l) (insert a l).
Proof.
  induction l as [|b l IH]; cbn; [reflexivity|]. destruct (Rleb (fst a) (fst b)); [reflexivity|].
  eapply Permutation_trans; [apply perm_swap|]. constructor. exact IH.
Qed.
Lemma insert_sorted a l : sorted_fst l -> sorted_fst (insert a l).
Proof.
  induction l as [|b l IH]; intros H; cbn [insert].
  - apply sorted_fst_cons; [intros x []|exact H].
  - destruct (Rleb_spec (fst a) (fst b)) as [Hab|Hab].
    + apply sorted_fst_cons; [|exact H]. intros x [<-|Hx]; [exact Hab|]. pose proof (sorted_fst_head _ _ _ H Hx). lra.
    + apply sorted_fst_cons; [|apply IH; eapply sorted_fst_tail; exact H].
      intros x Hx. apply (Permutation_in _ (Permutation_sym (insert_perm a l))) in Hx.
      destruct Hx as [<-|Hx]; [lra|apply (sorted_fst_head _ _ _ H Hx)].
Qed.
Lemma isort_sorts : sorts isort.
Proof.
  intros l. induction l as [|a l IH]; cbn [isort].
  - split; [constructor|]. intros i j _ Hj. cbn in Hj. lia.
  - destruct IH as [H1 H2]. split; [|apply insert_sorted, H2]. eapply Permutation_trans; [constructor; exact H1|apply insert_perm].
Qed.
Lemma isort_id l : sorted_fst l -> isort l = l.
Proof.
  induction l as [|a l IH]; intros H; [reflexivity|]. cbn [isort]. rewrite IH by (eapply sorted_fst_tail; exact H).
  destruct l as [|b l]; [reflexivity|]. cbn [insert]. pose proof (sorted_fst_head _ _ b H (or_introl eq_refl)).
  destruct (Rleb_spec (fst a) (fst b)); [reflexivity|lra].
Qed.
Lemma isort_scale c l : isort (map (fun xw => (fst xw, c * snd xw)) l) = map (fun xw => (fst xw, c * snd xw)) (isort l).
Proof.
  induction l as [|a l IH]; [reflexivity|]. cbn [map isort]. rewrite IH. generalize (isort l). intros m.
  induction m as [|b m IHm]; [reflexivity|]. cbn [map insert fst]. destruct (Rleb (fst a) (fst b)); [reflexivity|].
  cbn [map]. rewrite IHm. reflexivity.
Qed.

Lemma sorted001 a b c : sorted_fst [(0, a); (0, b); (1, c)].
Proof. repeat (apply sorted_fst_cons; [intros x Hx; cbn in Hx; intuition (subst; cbn; lra)|]). intros i j _ Hj. cbn in Hj. lia. Qed.

(** Ties: the same weighted sample listed in two orders. *)
Theorem quantiles_ties_refuted : exists sorter values ws ws' p q q',
  sorts sorter /\ Permutation (combine values ws) (combine values ws')
  /\ quantiles sorter values (Some [p]) (Some ws) false = Ok [q]
  /\ quantiles sorter values (Some [p]) (Some ws') false = Ok [q'] /\ q <> q'.
Proof.
  exists isort, [0; 0; 1], [1; 2; 1], [2; 1; 1], (11/20), (2/15), 0.
  split; [exact isort_sorts|]. split; [cbn [combine]; apply perm_swap|].
  assert (HF : fractions [11/20]) by (intros p [<-|[]]; lra).
  split; [|split; [|lra]].
  - rewrite quantiles_run by (try exact HF; try discriminate; reflexivity). cbn [map combine]. rewrite isort_id by apply sorted001.
    do 2 f_equal. unfold quantile_sorted, np_interp. cbn [map combine snd fst length Nat.sub].
    destruct (Rltb_spec (11/20) (vget (wquantiles [(0, 1); (0, 2); (1, 1)]) 0)) as [H|H].
    { rewrite wquantiles_nth in H by (cbn; lia). cbn in H. lra. }
    destruct (Rltb_spec (vget (wquantiles [(0, 1); (0, 2); (1, 1)]) 2) (11/20)) as [H'|H'].
    { rewrite wquantiles_nth in H' by (cbn; lia). cbn in H'. lra. }
    rewrite (interp_in _ _ _ _ 1%nat); [| |lia|].
    + rewrite !wquantiles_nth by (cbn; lia). cbn. field.
    + apply (wquantiles_incr [(0, 1); (0, 2); (1, 1)]); [discriminate|]. intros w Hw. cbn in Hw. intuition lra.
    + rewrite !wquantiles_nth by (cbn; lia). cbn. lra.
  - rewrite quantiles_run by (try exact HF; try discriminate; reflexivity). cbn [map combine]. rewrite isort_id by apply sorted001.
    do 2 f_equal. unfold quantile_sorted, np_interp. cbn [map combine snd fst length Nat.sub].
    destruct (Rltb_spec (11/20) (vget (wquantiles [(0, 2); (0, 1); (1, 1)]) 0)) as [H|H].
    { reflexivity. }
    destruct (Rltb_spec (vget (wquantiles [(0, 2); (0, 1); (1, 1)]) 2) (11/20)) as [H'|H'].
    { rewrite wquantiles_nth in H' by (cbn; lia). cbn in H'. lra. }
    rewrite (interp_in _ _ _ _ 0%nat); [| |lia|].
    + rewrite !wquantiles_nth by (cbn; lia). cbn. field.
    + apply (wquantiles_incr [(0, 2); (0, 1); (1, 1)]); [discriminate|]. intros w Hw. cbn in Hw. intuition lra.
    + rewrite !wquantiles_nth by (cbn; lia). cbn. lra.
Qed.

(** Refused calls. *)
Theorem quantiles_errors sorter values ws b :
  quantiles sorter values None ws b = Err ValueError
  /\ (forall ps, (exists p, In p ps /\ ~ 0 <= p <= 1) -> quantiles sorter values (Some ps) ws b = Err AssertionError).
Proof.
  split; [reflexivity|]. intros ps [p [Hin Hp]]. unfold quantiles.
  destruct (forallb (fun p => andb (Rleb 0 p) (Rleb p 1)) ps) eqn:E; [|reflexivity].
  rewrite forallb_forall in E. specialize (E p Hin). apply andb_true_iff in E. destruct E as [E1 E2].
  apply Rleb_true in E1. apply Rleb_true in E2. tauto.
Qed.

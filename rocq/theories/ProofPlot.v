(** Proofs about confidence bands, contour levels and the conversion between fractions and standard deviations. *)
From Coq Require Import Permutation ZArith.
From Verif Require Import Base ModelLinAlg ModelKernels ModelKDE ModelInterp ModelResample ModelUtils ModelNd ModelGrid ModelSample
  SpecUtils SpecNd ModelPlot SpecPlot ProofInterp ProofUtils ProofUtils2 ProofNd ProofSample.
Open Scope R_scope.
Notation length := List.length.

(* ------------------------------------------------------------ confidence *)
Lemma np_interp_knot x y m i : increasing x m -> (i <= m)%nat -> np_interp x y m (x i) = y i.
Proof.
  intros Hx Hi. destruct m as [|m]; [replace i with O by lia; apply np_interp_zero|].
  unfold np_interp. pose proof (incr_nondecr _ _ Hx O i ltac:(lia) Hi). pose proof (incr_nondecr _ _ Hx i (S m) Hi ltac:(lia)).
  destruct (Rltb_spec (x i) (x O)); [lra|]. destruct (Rltb_spec (x (S m)) (x i)); [lra|]. apply interp_knot; auto. lia.
Qed.
Lemma np_interp_mono' x y m v w : increasing x m -> nondecreasing y m -> v <= w -> np_interp x y m v <= np_interp x y m w.
Proof.
  intros Hx Hy Hv. destruct m as [|m]; [rewrite !np_interp_zero; lra|]. apply np_interp_mono; auto. lia.
Qed.
Lemma np_interp_range' x y m v : increasing x m -> nondecreasing y m -> y O <= np_interp x y m v <= y m.
Proof.
  intros Hx Hy. destruct m as [|m]; [rewrite np_interp_zero; lra|]. apply np_interp_range; auto. lia.
Qed.
Lemma threshold (x : nat -> R) v n : (forall i j, (i < j)%nat -> (j < n)%nat -> x i <= x j) ->
  exists k, (k <= n)%nat /\ (forall i, (i < k)%nat -> x i <= v) /\ (forall i, (k <= i < n)%nat -> v < x i).
Proof.
  induction n as [|n IH]; intros H; [exists O; split; [lia|]; split; intros; lia|].
  destruct IH as (k & Hk & A & B); [intros; apply H; lia|]. destruct (Rle_or_lt (x n) v) as [L|L].
  - exists (S n). split; [lia|]. split; [|intros; lia]. intros i Hi. destruct (Nat.eq_dec i n) as [->|]; [exact L|].
    pose proof (H i n ltac:(lia) ltac:(lia)). lra.
  - exists k. split; [lia|]. split; [exact A|]. intros i Hi. destruct (Nat.eq_dec i n) as [->|]; [exact L|]. apply B. lia.
Qed.
Lemma conf_locate x y v : length x = length y -> y <> [] -> increasing (vget x) (length y - 1) -> nondecreasing (vget y) (length y - 1) ->
  exists k, (k <= length y)%nat /\ (forall i, (i < k)%nat -> vget x i <= v /\ vget y i <= conf_at (x, y) v)
  /\ (forall i, (k <= i < length y)%nat -> v < vget x i /\ conf_at (x, y) v <= vget y i).
Proof.
  intros Hl Hne Hx Hy. assert (L : (0 < length y)%nat) by (destruct y; [contradiction|cbn; lia]).
  destruct (threshold (vget x) v (length y)) as (k & Hk & A & B).
  { intros i j Hij Hj. left. apply Hx; lia. }
  exists k. split; [exact Hk|]. unfold conf_at. cbn [fst snd]. split; intros i Hi.
  - split; [apply A, Hi|]. rewrite <- (np_interp_knot (vget x) (vget y) (length y - 1) i) by (auto; lia). apply np_interp_mono'; auto.
  - split; [apply B, Hi|]. pose proof (np_interp_knot (vget x) (vget y) (length y - 1) i Hx ltac:(lia)) as E.
    pose proof (np_interp_mono' (vget x) (vget y) (length y - 1) v (vget x i) Hx Hy (Rlt_le _ _ (B i Hi))). lra.
Qed.

(** The table is a sorted copy of the data together with an increasing vector of the same length. *)
Definition table_for (data ws : list R) (t : list R * list R) (s : list (R * R)) : Prop :=
  Permutation (combine data ws) s /\ sorted_fst s /\ snd t = map fst s /\ length (fst t) = length s
  /\ increasing (vget (fst t)) (length s - 1).

Lemma combine_ones (data : list R) : combine data (map (fun _ => 1) data) = map (fun x => (x, 1)) data.
Proof. induction data as [|a l IH]; [reflexivity|]. cbn. rewrite IH. reflexivity. Qed.
Lemma vget_map_seq (g : nat -> R) n i : (i < n)%nat -> vget (map g (seq 0 n)) i = g i.
Proof.
  intros H. unfold vget. rewrite (nth_indep _ 0 (g O)) by (rewrite map_length, seq_length; exact H). rewrite map_nth, seq_nth by exact H. reflexivity.
Qed.
Lemma vget_map (g : R -> R) l i : (i < length l)%nat -> vget (map g l) i = g (vget l i).
Proof. intros H. unfold vget. rewrite (nth_indep _ 0 (g 0)) by (rewrite map_length; exact H). apply map_nth. Qed.

Lemma conf_table_none sorter data : data <> [] ->
  exists t, conf_table sorter data None = Ok t /\ table_for data (map (fun _ => 1) data) t (map (fun x => (x, 1)) (np_sort data))
  /\ (forall i, (i < length data)%nat -> vget (fst t) i = INR i / INR (length data - 1)).
Proof.
  intros Hne. assert (L : (0 < length data)%nat) by (destruct data; [contradiction|cbn; lia]).
  eexists. split; [reflexivity|]. cbn [fst snd]. unfold table_for. cbn [fst snd]. rewrite !map_length, seq_length, np_sort_length. split.
  - split; [rewrite combine_ones; apply Permutation_map, sort_perm|]. split.
    { unfold sorted_fst. rewrite map_map. cbn [fst]. rewrite map_id. apply np_sort_spec. }
    split; [rewrite map_map; cbn [fst]; rewrite map_id; reflexivity|]. split; [reflexivity|].
    intros i j Hij Hj. rewrite !vget_map_seq by (rewrite ?np_sort_length; lia). apply Rmult_lt_compat_r; [|apply lt_INR, Hij].
    apply Rinv_0_lt_compat, lt_0_INR. lia.
  - intros i Hi. rewrite vget_map_seq by (rewrite ?np_sort_length; lia). reflexivity.
Qed.
Lemma conf_table_some sorter data ws : sorts sorter -> data <> [] -> length ws = length data -> all_pos ws ->
  exists t s, conf_table sorter data (Some ws) = Ok t /\ table_for data ws t s /\ all_pos (map snd s) /\ Permutation ws (map snd s)
  /\ (forall i, (i < length s)%nat -> vget (fst t) i = rsum (S i) (vget (map snd s)) / lsum ws).
Proof.
  intros Hs Hne Hl Hp. destruct (sorter_facts sorter data ws Hs Hne Hl Hp) as (H1 & H2 & H3 & H4 & H5).
  unfold conf_table. rewrite Hl, Nat.ltb_irrefl. eexists _, (sorter (combine data ws)). split; [reflexivity|].
  set (s := sorter (combine data ws)) in *. assert (L : (0 < length s)%nat) by (destruct s; [contradiction|cbn; lia]).
  assert (HW : 0 < lsum (map snd s)) by (apply all_pos_sum; [assumption|intros E; apply map_eq_nil in E; contradiction]).
  assert (V : forall i, (i < length s)%nat -> vget (map (fun c => c / lsum (map snd s)) (cumsum1 (map snd s))) i = rsum (S i) (vget (map snd s)) / lsum (map snd s)).
  { intros i Hi. rewrite vget_map by (rewrite cumsum1_length, map_length; exact Hi). rewrite cumsum1_nth by (rewrite map_length; exact Hi). reflexivity. }
  split; [|split; [exact H2|split; [exact H5|]]].
  - split; [apply Hs|]. split; [exact H3|]. cbn [fst snd]. split; [reflexivity|]. split; [rewrite map_length, cumsum1_length, map_length; reflexivity|].
    apply step_incr. intros i Hi. rewrite !V by lia. apply Rmult_lt_compat_r; [apply Rinv_0_lt_compat, HW|].
    cbn [rsum]. assert (0 < vget (map snd s) (S i)) by (apply all_pos_nth; [assumption|rewrite map_length; lia]). lra.
  - intros i Hi. cbn [fst]. rewrite (lsum_perm _ _ H5). apply V, Hi.
Qed.
Lemma conf_table_nice sorter data weights : sorts sorter -> nice data weights ->
  exists t s, conf_table sorter data weights = Ok t /\ table_for data (the_weights data weights) t s.
Proof.
  intros Hs (Hne & Hl & Hp). destruct weights as [ws|].
  - destruct (conf_table_some sorter data ws Hs Hne Hl Hp) as (t & s & E & T & _). exists t, s. auto.
  - destruct (conf_table_none sorter data Hne) as (t & E & T & _). exists t. eexists. split; [exact E|exact T].
Qed.
Lemma table_facts data ws t s : table_for data ws t s -> length ws = length data -> data <> [] ->
  length (fst t) = length (snd t) /\ snd t <> [] /\ length (snd t) = length data /\ increasing (vget (fst t)) (length (snd t) - 1)
  /\ nondecreasing (vget (snd t)) (length (snd t) - 1) /\ Permutation data (snd t).
Proof.
  intros (P & S & E & L & I) Hl Hne. rewrite E, map_length.
  assert (PD : Permutation data (map fst s)) by (rewrite <- (map_fst_combine data ws Hl) at 1; apply Permutation_map, P).
  split; [exact L|]. split. { intros Q. rewrite Q in PD. apply Permutation_sym, Permutation_nil in PD. contradiction. }
  split; [rewrite (Permutation_length PD), map_length; reflexivity|]. split; [exact I|]. split; [apply sorted_nondecr, S|exact PD].
Qed.

Lemma confidence_run sorter data weights qs t : data <> [] -> conf_table sorter data weights = Ok t ->
  confidence sorter data weights (Some qs)
  = Ok (conf_at t (1 / 2), map (fun q => (conf_at t (1 / 2 - q / 2), conf_at t (1 / 2 + q / 2))) qs).
Proof. intros Hne E. unfold confidence. rewrite E. cbn [bind]. destruct data; [contradiction|]. reflexivity. Qed.

(** It draws one band per fraction ... *)
Theorem confidence_total sorter data weights qs : sorts sorter -> nice data weights ->
  exists med bands, confidence sorter data weights (Some qs) = Ok (med, bands) /\ length bands = length qs.
Proof.
  intros Hs HN. destruct (conf_table_nice _ _ _ Hs HN) as (t & s & E & _). rewrite (confidence_run _ _ _ _ t (proj1 HN) E).
  eexists _, _. split; [reflexivity|apply map_length].
Qed.
Lemma band_nth t qs j : (j < length qs)%nat ->
  nth j (map (fun q => (conf_at t (1 / 2 - q / 2), conf_at t (1 / 2 + q / 2))) qs) (0, 0)
  = (conf_at t (1 / 2 - nth j qs 0 / 2), conf_at t (1 / 2 + nth j qs 0 / 2)).
Proof.
  intros H. set (g := fun q => (conf_at t (1 / 2 - q / 2), conf_at t (1 / 2 + q / 2))). rewrite (nth_indep _ (0, 0) (g 0)) by (rewrite map_length; exact H).
  rewrite map_nth. reflexivity.
Qed.

(** ... containing the median, ... *)
Theorem confidence_median sorter data weights qs med bands j : sorts sorter -> nice data weights ->
  confidence sorter data weights (Some qs) = Ok (med, bands) -> (j < length qs)%nat -> 0 <= nth j qs 0 ->
  fst (nth j bands (0, 0)) <= med <= snd (nth j bands (0, 0)).
Proof.
  intros Hs HN HC Hj Hq. destruct (conf_table_nice _ _ _ Hs HN) as (t & s & E & T).
  rewrite (confidence_run _ _ _ _ t (proj1 HN) E) in HC. injection HC as <- <-. rewrite band_nth by exact Hj. cbn [fst snd].
  destruct (table_facts _ _ _ _ T (proj1 (proj2 HN)) (proj1 HN)) as (_ & _ & _ & I & Y & _). unfold conf_at. split; apply np_interp_mono'; auto; lra.
Qed.
(** ... nested, ... *)
Theorem confidence_nested sorter data weights qs med bands i j : sorts sorter -> nice data weights ->
  confidence sorter data weights (Some qs) = Ok (med, bands) -> (i < length qs)%nat -> (j < length qs)%nat -> nth i qs 0 <= nth j qs 0 ->
  fst (nth j bands (0, 0)) <= fst (nth i bands (0, 0)) /\ snd (nth i bands (0, 0)) <= snd (nth j bands (0, 0)).
Proof.
  intros Hs HN HC Hi Hj Hq. destruct (conf_table_nice _ _ _ Hs HN) as (t & s & E & T).
  rewrite (confidence_run _ _ _ _ t (proj1 HN) E) in HC. injection HC as <- <-. rewrite !band_nth by assumption. cbn [fst snd].
  destruct (table_facts _ _ _ _ T (proj1 (proj2 HN)) (proj1 HN)) as (_ & _ & _ & I & Y & _). unfold conf_at. split; apply np_interp_mono'; auto; lra.
Qed.
(** ... within the range of the data. *)
Theorem confidence_range sorter data weights qs med bands lo hi : sorts sorter -> nice data weights -> min_of data lo -> max_of data hi ->
  confidence sorter data weights (Some qs) = Ok (med, bands) ->
  lo <= med <= hi /\ forall b, In b bands -> (lo <= fst b <= hi) /\ (lo <= snd b <= hi).
Proof.
  intros Hs HN Hlo Hhi HC. destruct (conf_table_nice _ _ _ Hs HN) as (t & s & E & T).
  rewrite (confidence_run _ _ _ _ t (proj1 HN) E) in HC. injection HC as <- <-.
  destruct (table_facts _ _ _ _ T (proj1 (proj2 HN)) (proj1 HN)) as (L & Ne & _ & I & Y & P).
  assert (A : forall v, lo <= conf_at t v <= hi).
  { intros v. unfold conf_at. pose proof (np_interp_range' (vget (fst t)) (vget (snd t)) (length (snd t) - 1) v I Y).
    assert (L0 : (0 < length (snd t))%nat) by (destruct (snd t); [contradiction|cbn; lia]).
    assert (In (vget (snd t) 0) data) by (eapply Permutation_in; [apply Permutation_sym, P|apply nth_In; lia]).
    assert (In (vget (snd t) (length (snd t) - 1)) data) by (eapply Permutation_in; [apply Permutation_sym, P|apply nth_In; lia]).
    pose proof (proj2 Hlo _ H0). pose proof (proj2 Hhi _ H1). lra. }
  split; [apply A|]. intros b Hb. apply in_map_iff in Hb. destruct Hb as (q & <- & _). cbn [fst snd]. split; apply A.
Qed.

(** How much of the data a band holds. *)
Section Share.
Context (s : list (R * R)) (k : nat) (c : R).
Context (Hk : (k <= length s)%nat).
Context (Hw : forall w, In w (map snd s) -> 0 <= w).
Context (HA : forall i, (i < k)%nat -> vget (map fst s) i <= c).
Context (HB : forall i, (k <= i < length s)%nat -> c <= vget (map fst s) i).
Lemma fst_vget i : fst (nth i s (0, 0)) = vget (map fst s) i.
Proof. unfold vget. rewrite <- (map_nth fst). reflexivity. Qed.
Lemma snd_vget i : snd (nth i s (0, 0)) = vget (map snd s) i.
Proof. unfold vget. rewrite <- (map_nth snd). reflexivity. Qed.
Lemma w_nonneg i : 0 <= vget (map snd s) i.
Proof.
  unfold vget. destruct (Nat.lt_ge_cases i (length (map snd s))) as [H|H]; [apply Hw, nth_In, H|]. rewrite nth_overflow by exact H. lra.
Qed.
Lemma share_lt : sumf (fun xw : R * R => if Rltb (fst xw) c then snd xw else 0) s <= rsum k (vget (map snd s)).
Proof.
  rewrite (sumf_rsum _ (0, 0)). rewrite (rsum_trunc k (length s)); [|exact Hk|].
  2:{ intros i Hi. rewrite fst_vget. destruct (Rltb_spec (vget (map fst s) i) c) as [H|H]; [|reflexivity]. pose proof (HB i ltac:(lia)). lra. }
  apply rsum_le. intros i Hi. rewrite fst_vget, snd_vget. pose proof (w_nonneg i). destruct (Rltb _ _); lra.
Qed.
Lemma share_le : rsum k (vget (map snd s)) <= sumf (fun xw : R * R => if Rleb (fst xw) c then snd xw else 0) s.
Proof.
  rewrite (sumf_rsum _ (0, 0)). replace (length s) with (k + (length s - k))%nat by lia. rewrite rsum_app.
  assert (0 <= rsum (length s - k) (fun i => (fun j => if Rleb (fst (nth j s (0, 0))) c then snd (nth j s (0, 0)) else 0) (k + i)%nat)).
  { apply rsum_nonneg. intros i Hi. rewrite snd_vget. pose proof (w_nonneg (k + i)). destruct (Rleb _ _); lra. }
  cbv beta in H. rewrite (rsum_ext k (fun j => if Rleb (fst (nth j s (0, 0))) c then snd (nth j s (0, 0)) else 0) (vget (map snd s))); [lra|].
  intros i Hi. rewrite fst_vget, snd_vget, (proj2 (Rleb_true _ _) (HA i Hi)). reflexivity.
Qed.
End Share.

Lemma closed_share (s : list (R * R)) lo hi : (forall xw, In xw s -> 0 <= snd xw) ->
  sumf (fun xw : R * R => if Rleb (fst xw) hi then snd xw else 0) s - sumf (fun xw : R * R => if Rltb (fst xw) lo then snd xw else 0) s
  <= sumf (fun xw : R * R => if andb (Rleb lo (fst xw)) (Rleb (fst xw) hi) then snd xw else 0) s.
Proof.
  intros Hw. rewrite <- sumf_minus. apply sumf_le. intros [x w] Hx. pose proof (Hw _ Hx). cbn [fst snd] in *.
  destruct (Rleb_spec x hi), (Rltb_spec x lo), (Rleb_spec lo x); cbn; lra.
Qed.
Lemma open_share (s : list (R * R)) lo hi : (forall xw, In xw s -> 0 <= snd xw) -> lo < hi ->
  sumf (fun xw : R * R => if andb (Rltb lo (fst xw)) (Rltb (fst xw) hi) then snd xw else 0) s
  <= sumf (fun xw : R * R => if Rltb (fst xw) hi then snd xw else 0) s - sumf (fun xw : R * R => if Rleb (fst xw) lo then snd xw else 0) s.
Proof.
  intros Hw Hlt. rewrite <- sumf_minus. apply sumf_le. intros [x w] Hx. pose proof (Hw _ Hx). cbn [fst snd] in *.
  destruct (Rleb_spec x lo), (Rltb_spec x hi), (Rltb_spec lo x); cbn; lra.
Qed.

(** With sums: [G v] bounds the weight up to the fraction [v]. *)
Lemma band_share data ws t s (G1 G2 : R -> R) q : table_for data ws t s -> length ws = length data -> data <> [] -> all_pos ws -> 0 <= q <= 1 ->
  (forall v k, 0 <= v <= 1 -> (k <= length s)%nat -> (forall i, (i < k)%nat -> vget (fst t) i <= v) -> (forall i, (k <= i < length s)%nat -> v < vget (fst t) i) ->
     G1 v < rsum k (vget (map snd s)) <= G2 v) -> 0 <= G2 (1 / 2 + q / 2) - G1 (1 / 2 - q / 2) ->
  G1 (1 / 2 + q / 2) - G2 (1 / 2 - q / 2) < weight_in (conf_at t (1 / 2 - q / 2)) (conf_at t (1 / 2 + q / 2)) data ws
  /\ weight_between (conf_at t (1 / 2 - q / 2)) (conf_at t (1 / 2 + q / 2)) data ws <= G2 (1 / 2 + q / 2) - G1 (1 / 2 - q / 2).
Proof.
  intros T Hl Hne Hp Hq HG H0. pose proof (table_facts _ _ _ _ T Hl Hne) as (L & Ne & Ln & I & Y & P).
  destruct T as (PS & S & ES & LS & IS). unfold weight_in, weight_between. rewrite !(sumf_perm _ _ _ PS).
  assert (Hw : forall xw, In xw s -> 0 <= snd xw).
  { intros [x w] Hx. apply (Permutation_in _ (Permutation_sym PS)) in Hx. apply in_combine_r in Hx. left. apply Hp, Hx. }
  assert (Hw' : forall w, In w (map snd s) -> 0 <= w) by (intros w Hx; apply in_map_iff in Hx; destruct Hx as (xw & <- & Hx); apply Hw, Hx).
  assert (B : forall v, 0 <= v <= 1 ->
    sumf (fun xw : R * R => if Rltb (fst xw) (conf_at t v) then snd xw else 0) s <= G2 v
    /\ G1 v < sumf (fun xw : R * R => if Rleb (fst xw) (conf_at t v) then snd xw else 0) s).
  { intros v Hv. assert (ET : (fst t, snd t) = t) by (destruct t; reflexivity).
    destruct (conf_locate (fst t) (snd t) v L Ne I Y) as (k & Hk & A & B). rewrite ET in A, B. rewrite ES, map_length in Hk, B. rewrite ES in A.
    destruct (HG v k Hv Hk (fun i Hi => proj1 (A i Hi)) (fun i Hi => proj1 (B i Hi))) as [E1 E2]. split.
    - eapply Rle_trans; [apply (share_lt s k); auto|exact E2]. intros i Hi. rewrite <- ES. rewrite ES. apply B, Hi.
    - eapply Rlt_le_trans; [exact E1|]. apply share_le; auto. intros i Hi. apply A, Hi. }
  destruct (B (1 / 2 - q / 2) ltac:(lra)) as [B1 B2]. destruct (B (1 / 2 + q / 2) ltac:(lra)) as [B3 B4]. split.
  - pose proof (closed_share s (conf_at t (1 / 2 - q / 2)) (conf_at t (1 / 2 + q / 2)) Hw). lra.
  - destruct (Rlt_or_le (conf_at t (1 / 2 - q / 2)) (conf_at t (1 / 2 + q / 2))) as [HL|HL].
    + pose proof (open_share s _ _ Hw HL). lra.
    + rewrite sumf_zero; [exact H0|]. intros [x w] _. cbn [fst snd]. destruct (Rltb_spec (conf_at t (1 / 2 - q / 2)) x), (Rltb_spec x (conf_at t (1 / 2 + q / 2))); cbn; lra.
Qed.

(** With weights: the share of the total weight, up to the heaviest weight. *)
Theorem confidence_weight sorter data ws qs med bands j m : sorts sorter -> data <> [] -> length ws = length data -> all_pos ws ->
  (forall w, In w ws -> w <= m) -> confidence sorter data (Some ws) (Some qs) = Ok (med, bands) -> (j < length qs)%nat -> 0 <= nth j qs 0 <= 1 ->
  nth j qs 0 * lsum ws - m < weight_in (fst (nth j bands (0, 0))) (snd (nth j bands (0, 0))) data ws
  /\ weight_between (fst (nth j bands (0, 0))) (snd (nth j bands (0, 0))) data ws <= nth j qs 0 * lsum ws + m.
Proof.
  intros Hs Hne Hl Hp Hm HC Hj Hq. destruct (conf_table_some sorter data ws Hs Hne Hl Hp) as (t & s & E & T & Hp' & Pw & HV).
  rewrite (confidence_run _ _ _ _ t Hne E) in HC. injection HC as <- <-. rewrite !band_nth by assumption. cbn [fst snd]. set (q := nth j qs 0) in *.
  assert (HW : 0 < lsum ws) by (apply all_pos_sum; [assumption|intros E'; rewrite E' in Hl; destruct data; [contradiction|discriminate Hl]]).
  assert (Hm0 : 0 < m) by (destruct ws as [|w0 ws0]; [cbn in HW; lra|]; pose proof (Hp w0 (or_introl eq_refl)); pose proof (Hm w0 (or_introl eq_refl)); lra).
  destruct (band_share data ws t s (fun v => v * lsum ws - m) (fun v => v * lsum ws) q T Hl Hne Hp Hq) as [H1 H2].
  - intros v k Hv Hk A B. split.
    + destruct (Nat.eq_dec k (length s)) as [->|Nk].
      * rewrite <- (map_length snd s), <- lsum_rsum, <- (lsum_perm _ _ Pw). assert (v * lsum ws <= 1 * lsum ws) by (apply Rmult_le_compat_r; lra). lra.
      * pose proof (B k ltac:(lia)) as HB. rewrite HV in HB by lia. cbn [rsum] in HB.
        assert (vget (map snd s) k <= m). { apply Hm. eapply Permutation_in; [apply Permutation_sym, Pw|]. apply nth_In. rewrite map_length. lia. }
        apply (Rmult_lt_compat_r (lsum ws)) in HB; [|exact HW]. unfold Rdiv in HB. rewrite Rmult_assoc, Rinv_l in HB by lra. lra.
    + destruct k as [|k]; [cbn [rsum]; apply Rmult_le_pos; lra|]. pose proof (A k ltac:(lia)) as HA. rewrite HV in HA by lia.
      apply (Rmult_le_compat_r (lsum ws)) in HA; [|lra]. unfold Rdiv in HA. rewrite Rmult_assoc, Rinv_l in HA by lra. lra.
  - assert (0 <= q * lsum ws) by (apply Rmult_le_pos; lra). lra.
  - split; lra.
Qed.
(** Without weights: the number of data, up to one. *)
Theorem confidence_count sorter data qs med bands j : sorts sorter -> data <> [] ->
  confidence sorter data None (Some qs) = Ok (med, bands) -> (j < length qs)%nat -> 0 <= nth j qs 0 <= 1 ->
  nth j qs 0 * (INR (length data) - 1) - 1 < weight_in (fst (nth j bands (0, 0))) (snd (nth j bands (0, 0))) data (map (fun _ => 1) data)
  /\ weight_between (fst (nth j bands (0, 0))) (snd (nth j bands (0, 0))) data (map (fun _ => 1) data) <= nth j qs 0 * (INR (length data) - 1) + 1.
Proof.
  intros Hs Hne HC Hj Hq. destruct (conf_table_none sorter data Hne) as (t & E & T & HV). set (s := map (fun x => (x, 1)) (np_sort data)) in *.
  rewrite (confidence_run _ _ _ _ t Hne E) in HC. injection HC as <- <-. rewrite !band_nth by assumption. cbn [fst snd]. set (q := nth j qs 0) in *.
  assert (L0 : (0 < length data)%nat) by (destruct data; [contradiction|cbn; lia]).
  assert (Ls : length s = length data) by (unfold s; rewrite map_length, np_sort_length; reflexivity).
  assert (Hp : all_pos (map (fun _ => 1) data)) by (intros w Hw; apply in_map_iff in Hw; destruct Hw as (? & <- & _); lra).
  set (m := INR (length data) - 1). assert (Em : INR (length data - 1) = m) by (unfold m; rewrite minus_INR by lia; cbn; lra).
  assert (Hm : 0 <= m) by (rewrite <- Em; apply pos_INR).
  assert (HR : forall k, (k <= length s)%nat -> rsum k (vget (map snd s)) = INR k).
  { intros k Hk. rewrite (rsum_ext k _ (fun _ => 1)); [rewrite rsum_const; ring|]. intros i Hi. unfold s. rewrite map_map. cbn [snd].
    rewrite (vget_map (fun _ => 1)) by (rewrite np_sort_length; lia). reflexivity. }
  destruct (band_share data (map (fun _ => 1) data) t s (fun v => v * m) (fun v => v * m + 1) q T (map_length _ _) Hne Hp Hq) as [H1 H2].
  - intros v k Hv Hk A B. rewrite HR by exact Hk. split.
    + destruct (Nat.eq_dec k (length s)) as [->|Nk].
      * rewrite Ls. assert (v * m <= 1 * m) by (apply Rmult_le_compat_r; lra). unfold m in *. lra.
      * pose proof (B k ltac:(lia)) as HB. rewrite HV in HB by lia. rewrite Em in HB. destruct (Req_dec m 0) as [Z|Z].
        -- rewrite Z. assert (k <> 0)%nat. { intros ->. unfold Rdiv in HB. cbn in HB. rewrite Rmult_0_l in HB. lra. }
           rewrite Rmult_0_r. apply lt_0_INR. lia.
        -- apply (Rmult_lt_compat_r m) in HB; [|lra]. unfold Rdiv in HB. rewrite Rmult_assoc, Rinv_l in HB by lra. lra.
    + destruct k as [|k]; [assert (0 <= v * m) by (apply Rmult_le_pos; lra); cbn; lra|]. pose proof (A k ltac:(lia)) as HA. rewrite HV in HA by lia. rewrite Em in HA.
      rewrite S_INR. destruct (Req_dec m 0) as [Z|Z].
      * assert (length data = 1%nat). { destruct (length data) as [|[|n']] eqn:En; [lia|reflexivity|]. exfalso. rewrite <- Em in Z. apply (not_0_INR (S (S n') - 1)); [lia|exact Z]. }
        assert (k = 0)%nat by lia. subst k. cbn. assert (0 <= v * m) by (apply Rmult_le_pos; lra). lra.
      * apply (Rmult_le_compat_r m) in HA; [|lra]. unfold Rdiv in HA. rewrite Rmult_assoc, Rinv_l in HA by lra. lra.
  - assert (0 <= q * m) by (apply Rmult_le_pos; lra). lra.
  - split; lra.
Qed.
Theorem confidence_errors sorter ws qs data : confidence sorter [] None qs = Err ValueError
  /\ ((length ws < length data)%nat -> confidence sorter data (Some ws) qs = Err IndexError).
Proof.
  split; [reflexivity|]. intros H. unfold confidence, conf_table. rewrite (proj2 (Nat.ltb_lt _ _) H). reflexivity.
Qed.

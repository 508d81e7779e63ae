From Coq Require Import ZArith Permutation.
From Verif Require Import Base ModelLinAlg ModelKernels ModelKDE ModelInterp ModelResample ModelUtils SpecUtils ProofUtils ProofUtils2 ModelNd SpecNd ProofNd ProofGrid ModelQuantAxis SpecQuantAxis.
Open Scope R_scope.
Notation length := List.length.

Lemma lane_length a k idx : length (lane a k idx) = nth k (shp a) 0%nat. Proof. unfold lane. rewrite map_length, seq_length. reflexivity. Qed.
Lemma ins_nth_app (A : Type) k (v : A) l : (k <= length l)%nat -> ins_nth k v l = firstn k l ++ v :: skipn k l.
Proof. revert l. induction k as [|k IH]; intros l H; [destruct l; reflexivity|]. destruct l as [|x l]; [cbn in H; lia|]. cbn. f_equal. apply IH. cbn in H. lia. Qed.
Lemma along_lane a k idx l : (k <= length idx)%nat -> along a k idx l <-> l = lane a k idx.
Proof.
  intros Hk. assert (HN : forall j, (j < nth k (shp a) 0%nat)%nat -> nth j (lane a k idx) 0 = at_ a (firstn k idx ++ j :: skipn k idx)).
  { intros j Hj. unfold lane. rewrite (nth_indep _ 0 (at_ a (ins_nth k O idx))) by (rewrite map_length, seq_length; exact Hj).
    rewrite (map_nth (fun j => at_ a (ins_nth k j idx))), seq_nth by exact Hj. rewrite ins_nth_app by exact Hk. reflexivity. }
  split.
  - intros [H1 H2]. apply (nth_ext _ _ 0 0); [rewrite lane_length; exact H1|]. intros j Hj. rewrite H2 by exact Hj. symmetry. apply HN. lia.
  - intros ->. split; [apply lane_length|]. intros j Hj. rewrite lane_length in Hj. apply HN, Hj.
Qed.

Lemma mapM_ok (A B : Type) (f : A -> res B) (g : A -> B) l : (forall x, In x l -> f x = Ok (g x)) -> mapM f l = Ok (map g l).
Proof.
  induction l as [|x l IH]; intros H; [reflexivity|]. cbn [mapM map]. rewrite (H x (or_introl eq_refl)). cbn [bind].
  rewrite IH by (intros; apply H; right; assumption). reflexivity.
Qed.
Lemma row_eq vw (T : nat -> R) ps : (forall j, (j < length vw)%nat -> T j = lsum (map snd vw)) -> let w := map snd vw in
  map (np_interp (vget (map (fun j => (vget (cumsum1 w) j - / 2 * vget w j) / T j) (seq 0 (length w)))) (vget (map fst vw)) (length vw - 1)) ps = map (quantile_sorted vw) ps.
Proof.
  intros HT w. apply map_ext. intros p. unfold quantile_sorted. f_equal. f_equal. unfold wquantiles. fold w.
  apply (nth_ext _ _ 0 0).
  - rewrite !map_length, seq_length, combine_length, cumsum1_length. lia.
  - intros j Hj. rewrite map_length, seq_length in Hj. assert (Hv : (j < length vw)%nat) by (unfold w in Hj; rewrite map_length in Hj; exact Hj).
    set (g := fun j => (vget (cumsum1 w) j - / 2 * vget w j) / T j). rewrite (nth_indep _ 0 (g O)) by (rewrite map_length, seq_length; exact Hj).
    rewrite map_nth, seq_nth by exact Hj. unfold g. cbn [Nat.add].
    set (h := fun cw : R * R => (fst cw - snd cw / 2) / lsum w). rewrite (nth_indep (map h _) 0 (h (0, 0))) by (rewrite map_length, combine_length, cumsum1_length; lia).
    rewrite map_nth, combine_nth by apply cumsum1_length. unfold h. cbn [fst snd]. rewrite (HT j Hv). unfold vget, Rdiv. fold w. f_equal. ring.
Qed.

Lemma pairs_length sorter (vs : bool) (a b : list R) : sorts sorter -> length a = length b -> length (if vs then combine a b else sorter (combine a b)) = length a.
Proof.
  intros HS H. assert (E : length (combine a b) = length a) by (rewrite combine_length; lia). destruct vs; [exact E|].
  destruct (HS (combine a b)) as [HP _]. apply Permutation_length in HP. congruence.
Qed.
Lemma lane_quantiles sorter values ws ps k idx vs : fractions ps -> shp ws = shp values -> (0 < nth k (shp values) 0)%nat ->
  quantiles sorter (lane values k idx) (Some ps) (Some (lane ws k idx)) vs
  = Ok (map (quantile_sorted (let vw := combine (lane values k idx) (lane ws k idx) in if vs then vw else sorter vw)) ps).
Proof.
  intros Hp Hs Hk. unfold quantiles.
  assert (E : forallb (fun p => andb (Rleb 0 p) (Rleb p 1)) ps = true).
  { apply forallb_forall. intros p Hi. destruct (Hp p Hi). destruct (Rleb_spec 0 p); [|lra]. destruct (Rleb_spec p 1); [|lra]. reflexivity. }
  rewrite E. cbn [negb]. rewrite !lane_length, Hs, Nat.eqb_refl, Nat.ltb_irrefl. cbn [negb]. rewrite Bool.andb_false_r.
  destruct (lane values k idx) as [|v l] eqn:El; [|reflexivity]. apply (f_equal (@List.length R)) in El. rewrite lane_length in El. cbn in El. lia.
Qed.

(** If every entry is divided by the sum of its own line: the quantiles of each line. *)
Lemma quant_axis_rows sorter values ps weights ax k vs : sorts sorter -> fractions ps -> norm_axis (length (shp values)) ax = Some k -> (0 < nth k (shp values) 0)%nat ->
  let ws := match weights with Some w => w | None => mkA (shp values) (fun _ => 1) end in
  shp ws = shp values -> sums_fit (shp values) k = true ->
  (forall idx j, inb (rem_nth k (shp values)) idx -> (j < nth k (shp values) 0)%nat ->
     lsum (lane ws k (sum_index (shp values) k (ins_nth k j idx))) = lsum (lane ws k idx)
     \/ sum_index (shp values) k (ins_nth k j idx) = idx) ->
  exists rows, quantiles_ax sorter values (Some ps) weights ax vs = Ok rows /\ length rows = size_of_shape (rem_nth k (shp values))
  /\ forall idx, inb (rem_nth k (shp values)) idx -> quantiles sorter (lane values k idx) (Some ps) (Some (lane ws k idx)) vs = Ok (nth (ravel (rem_nth k (shp values)) idx) rows []).
Proof.
  intros HS Hp Ha Hk ws Hw Hf HT. unfold quantiles_ax. rewrite Ha, Hf. fold ws. cbv zeta.
  assert (E : forallb (fun p => andb (Rleb 0 p) (Rleb p 1)) ps = true).
  { apply forallb_forall. intros p Hi. destruct (Hp p Hi). destruct (Rleb_spec 0 p); [|lra]. destruct (Rleb_spec p 1); [|lra]. reflexivity. }
  rewrite E. cbn [negb].
  set (pairs := fun idx => if vs then combine (lane values k idx) (lane ws k idx) else sorter (combine (lane values k idx) (lane ws k idx))).
  assert (Lp : forall idx, length (pairs idx) = nth k (shp values) 0%nat).
  { intros idx. unfold pairs. rewrite pairs_length; [apply lane_length|exact HS|rewrite !lane_length, Hw; reflexivity]. }
  assert (Sp : forall idx, lsum (map snd (pairs idx)) = lsum (lane ws k idx)).
  { intros idx. assert (B : map snd (combine (lane values k idx) (lane ws k idx)) = lane ws k idx).
    { assert (L : length (lane values k idx) = length (lane ws k idx)) by (rewrite !lane_length, Hw; reflexivity).
      revert L. generalize (lane values k idx) (lane ws k idx). induction l as [|x l IH]; intros [|y m] L; try discriminate L; [reflexivity|]. cbn. f_equal. apply IH. injection L as L. exact L. }
    unfold pairs. destruct vs; [rewrite B; reflexivity|]. destruct (HS (combine (lane values k idx) (lane ws k idx))) as [HP _].
    rewrite <- B at 2. apply Permutation_map with (f := snd) in HP. symmetry. clear -HP. induction HP; cbn; lra. }
  exists (map (fun idx => map (quantile_sorted (pairs idx)) ps) (all_idx (rem_nth k (shp values)))). split; [|split].
  - apply mapM_ok. intros idx Hi. apply inb_all_idx in Hi. fold (pairs idx). rewrite Lp. destruct (Nat.eqb_spec (nth k (shp values) 0%nat) 0); [lia|]. f_equal.
    rewrite <- (Lp idx). apply (row_eq (pairs idx) (fun j => lsum (map snd (pairs (sum_index (shp values) k (ins_nth k j idx)))))).
    intros j Hj. rewrite Lp in Hj. destruct (HT idx j Hi Hj) as [H|H]; [rewrite !Sp; exact H|rewrite H; reflexivity].
  - rewrite map_length, all_idx_length. reflexivity.
  - intros idx Hi. rewrite lane_quantiles by assumption. f_equal. symmetry.
    rewrite (nth_indep _ [] (map (quantile_sorted (pairs [])) ps)) by (rewrite map_length, all_idx_length; apply ravel_lt, Hi).
    rewrite (map_nth (fun idx => map (quantile_sorted (pairs idx)) ps)), all_idx_nth by exact Hi. reflexivity.
Qed.
Lemma sums_fit_iff sh k : sums_fit sh k = true <-> fits sh k.
Proof.
  unfold sums_fit, fits. rewrite forallb_forall. split.
  - intros H d H1 H2. specialize (H d). rewrite in_seq, Bool.orb_true_iff, !Nat.eqb_eq in H. apply H. lia.
  - intros H d Hd. apply in_seq in Hd. rewrite Bool.orb_true_iff, !Nat.eqb_eq. apply H; lia.
Qed.
Lemma norm_axis_lt n ax k : norm_axis n ax = Some k -> (k < n)%nat.
Proof.
  unfold norm_axis. destruct (Z.leb_spec 0 ax), (Z.ltb_spec ax (Z.of_nat n)); cbn [andb]; try (intros E; injection E as <-; lia);
  destruct (Z.leb_spec (- Z.of_nat n) ax), (Z.ltb_spec ax 0); cbn [andb]; try discriminate; intros E; injection E as <-; lia.
Qed.
Lemma rem_nth_length (A : Type) k (l : list A) : (k < length l)%nat -> length (rem_nth k l) = (length l - 1)%nat.
Proof. revert k. induction l as [|x l IH]; intros [|k] H; cbn in *; try lia. rewrite IH by lia. lia. Qed.
Lemma inb_nth sh idx d : inb sh idx -> (d < length sh)%nat -> (nth d idx 0 < nth d sh 0)%nat.
Proof. intros H. revert d. induction H as [|i n idx sh Hi H IH]; intros d Hd; [cbn in Hd; lia|]. destruct d; [exact Hi|]. cbn. apply IH. cbn in Hd. lia. Qed.
Lemma inb_len sh idx : inb sh idx -> length idx = length sh. Proof. intros H. induction H; cbn; congruence. Qed.

Lemma quant_axis_last : forall sorter values ps w k ax vs, sorts sorter -> fractions ps -> length (shp values) = S k -> norm_axis (S k) ax = Some k -> (0 < nth k (shp values) 0)%nat ->
  shp w = shp values -> (forall idx l, inb (rem_nth k (shp values)) idx -> along w k idx l -> lsum l <> 0) ->
  exists rows, quantiles_ax sorter values (Some ps) (Some w) ax vs = Ok rows /\ length rows = size_of_shape (rem_nth k (shp values))
  /\ forall idx v u, inb (rem_nth k (shp values)) idx -> along values k idx v -> along w k idx u ->
       quantiles sorter v (Some ps) (Some u) vs = Ok (nth (ravel (rem_nth k (shp values)) idx) rows []).
Proof.
  intros sorter values ps w k ax vs HS Hp Hn Ha Hk Hw _.
  destruct (quant_axis_rows sorter values ps (Some w) ax k vs HS Hp) as (rows & E & L & H); try assumption.
  - rewrite Hn. exact Ha.
  - apply sums_fit_iff. intros d H1 H2. lia.
  - intros idx j Hi Hj. right. unfold sum_index. rewrite Hn. replace (S k - 1)%nat with k by lia.
    assert (Ll : length (rem_nth k (shp values)) = k) by (rewrite rem_nth_length; lia). assert (Li : length idx = k) by (rewrite (inb_len _ _ Hi); exact Ll).
    apply (nth_ext _ _ 0%nat 0%nat); [rewrite map_length, seq_length; auto|]. intros d Hd. rewrite map_length, seq_length in Hd.
    set (g := fun d : nat => _). rewrite (nth_indep _ 0%nat (g 0%nat)) by (rewrite map_length, seq_length; exact Hd). rewrite map_nth, seq_nth by exact Hd. unfold g. cbn [Nat.add].
    pose proof (inb_nth _ _ d Hi ltac:(lia)) as Hb.
    rewrite ins_nth_app by lia. rewrite app_nth1 by (rewrite firstn_length; lia).
    destruct (Nat.eqb_spec (nth d (rem_nth k (shp values)) 0%nat) 1); [lia|].
    rewrite firstn_all2 by lia. reflexivity.
  - exists rows. split; [exact E|]. split; [exact L|]. intros idx v u Hi Hv Hu.
    assert (Hle : (k <= length idx)%nat) by (rewrite (inb_len _ _ Hi), rem_nth_length; lia).
    apply along_lane in Hv; [|exact Hle]. apply along_lane in Hu; [|exact Hle]. subst. apply H, Hi.
Qed.
Lemma lane_ones sh k idx : lane (mkA sh (fun _ => 1)) k idx = repeat 1 (nth k sh 0%nat).
Proof. unfold lane. cbn [shp at_]. generalize 0%nat at 1. induction (nth k sh 0%nat) as [|m IH]; intros s; [reflexivity|]. cbn. f_equal. apply IH. Qed.
Lemma quant_axis_unweighted : forall sorter values ps k ax vs, sorts sorter -> fractions ps -> norm_axis (length (shp values)) ax = Some k -> (0 < nth k (shp values) 0)%nat ->
  fits (shp values) k ->
  exists rows, quantiles_ax sorter values (Some ps) None ax vs = Ok rows /\ length rows = size_of_shape (rem_nth k (shp values))
  /\ forall idx v, inb (rem_nth k (shp values)) idx -> along values k idx v ->
       quantiles sorter v (Some ps) None vs = Ok (nth (ravel (rem_nth k (shp values)) idx) rows []).
Proof.
  intros sorter values ps k ax vs HS Hp Ha Hk Hf. apply sums_fit_iff in Hf.
  destruct (quant_axis_rows sorter values ps None ax k vs HS Hp Ha Hk) as (rows & E & L & H); [reflexivity|exact Hf| |].
  - intros idx j Hi Hj. left. rewrite !lane_ones. reflexivity.
  - exists rows. split; [exact E|]. split; [exact L|]. intros idx v Hi Hv.
    assert (Hle : (k <= length idx)%nat) by (pose proof (norm_axis_lt _ _ _ Ha); rewrite (inb_len _ _ Hi), rem_nth_length; lia).
    apply along_lane in Hv; [|exact Hle]. subst v. rewrite <- (H idx Hi). rewrite lane_ones.
    unfold quantiles. replace (map (fun _ => 1) (lane values k idx)) with (repeat 1 (nth k (shp values) 0%nat)); [reflexivity|].
    rewrite <- (lane_length values k idx). clear. induction (lane values k idx) as [|x l IH]; [reflexivity|]. cbn. f_equal. exact IH.
Qed.
Lemma quant_axis_error : forall sorter values ps weights k ax vs, fractions ps -> norm_axis (length (shp values)) ax = Some k -> ~ fits (shp values) k ->
  quantiles_ax sorter values (Some ps) weights ax vs = Err ValueError.
Proof.
  intros sorter values ps weights k ax vs Hp Ha Hf. unfold quantiles_ax. cbv zeta.
  assert (E : forallb (fun p => andb (Rleb 0 p) (Rleb p 1)) ps = true).
  { apply forallb_forall. intros p Hi. destruct (Hp p Hi). destruct (Rleb_spec 0 p); [|lra]. destruct (Rleb_spec p 1); [|lra]. reflexivity. }
  rewrite E, Ha. cbn [negb]. rewrite <- sums_fit_iff in Hf. destruct (sums_fit (shp values) k); [contradiction Hf; reflexivity|reflexivity].
Qed.
(** Two dimensions, the first axis. *)
Lemma quant_axis_first : forall sorter values ps weights a b vs, fractions ps -> shp values = [a; b] -> a <> b -> b <> 1%nat ->
  quantiles_ax sorter values (Some ps) weights 0 vs = Err ValueError.
Proof.
  intros sorter values ps weights a b vs Hp Hs H1 H2. apply quant_axis_error with (k := O); [exact Hp|rewrite Hs; reflexivity|].
  rewrite Hs. intros H. specialize (H O (le_n _)). cbn in H. destruct H; [lia|congruence|congruence].
Qed.
Definition qa_values : nda := mkA [2; 2]%nat (fun idx => INR (nth 0 idx 0%nat)).
Definition qa_weights : nda := mkA [2; 2]%nat (fun idx => if Nat.eqb (nth 1 idx 0%nat) 0 then 1 else 3).
Lemma quant_axis_refuted : exists sorter values w rows q, sorts sorter /\ shp values = [2; 2]%nat /\ shp w = [2; 2]%nat /\ (forall idx, 0 < at_ w idx)
  /\ quantiles_ax sorter values (Some [1 / 2]) (Some w) 0 true = Ok rows /\ along values 0 [1%nat] [0; 1] /\ along w 0 [1%nat] [3; 3]
  /\ quantiles sorter [0; 1] (Some [1 / 2]) (Some [3; 3]) true = Ok q /\ nth (ravel [2%nat] [1%nat]) rows [] <> q.
Proof.
  exists isort, qa_values, qa_weights.
  assert (V : forall j, lane qa_values 0 [j] = [0; 1]) by (intros; reflexivity).
  assert (W0 : lane qa_weights 0 [0%nat] = [1; 1]) by reflexivity. assert (W1 : lane qa_weights 0 [1%nat] = [3; 3]) by reflexivity.
  assert (P : forall x : R, 0 <= x <= 1 -> andb (Rleb 0 x) (Rleb x 1) = true) by (intros x [? ?]; destruct (Rleb_spec 0 x); [|lra]; destruct (Rleb_spec x 1); [reflexivity|lra]).
  eexists _, _. split; [apply isort_sorts|]. split; [reflexivity|]. split; [reflexivity|].
  split; [intros idx; unfold qa_weights; cbn [at_]; destruct (Nat.eqb _ 0); lra|]. split; [|split; [|split; [|split]]].
  - unfold quantiles_ax. cbn [forallb]. rewrite P by lra. cbn [negb andb]. replace (norm_axis (length (shp qa_values)) 0) with (Some 0%nat) by reflexivity. cbv zeta.
    replace (sums_fit (shp qa_values) 0) with true by reflexivity. cbn [negb]. replace (all_idx (rem_nth 0 (shp qa_values))) with [[0%nat]; [1%nat]] by reflexivity.
    cbn [mapM bind]. replace (Nat.eqb (length (combine (lane qa_values 0 [0%nat]) (lane qa_weights 0 [0%nat]))) 0) with false by reflexivity.
    replace (Nat.eqb (length (combine (lane qa_values 0 [1%nat]) (lane qa_weights 0 [1%nat]))) 0) with false by reflexivity. cbn [bind]. reflexivity.
  - apply along_lane; [cbn; lia|]. symmetry. apply V.
  - apply along_lane; [cbn; lia|]. symmetry. exact W1.
  - unfold quantiles. cbn [forallb]. rewrite P by lra. cbn. reflexivity.
  - cbn [ravel size_of_shape fold_right Nat.mul Nat.add nth map]. replace (1 * 1 + 0)%nat with 1%nat by reflexivity. cbn [nth].
    intros E. injection E as E. revert E.
    unfold quantile_sorted, wquantiles, np_interp. cbn. unfold vget. cbn.
    match goal with |- context [Rltb ?u ?v] => destruct (Rltb_spec u v) as [H|H] end; [|exfalso; lra].
    match goal with |- context [Rltb ?u ?v] => destruct (Rltb_spec u v) as [H'|H'] end; [exfalso; lra|].
    match goal with |- context [Rltb ?u ?v] => destruct (Rltb_spec u v) as [H''|H''] end; [exfalso; lra|].
    unfold interp, interp_bin. cbn.
    repeat match goal with |- context [Rleb ?u ?v] => destruct (Rleb_spec u v); [|] end; cbn; lra.
Qed.
(** The remaining errors. *)
Lemma quant_axis_refused : forall sorter values weights ax vs, quantiles_ax sorter values None weights ax vs = Err ValueError
  /\ (forall ps, ~ fractions ps -> quantiles_ax sorter values (Some ps) weights ax vs = Err AssertionError)
  /\ (forall ps, fractions ps -> norm_axis (length (shp values)) ax = None -> quantiles_ax sorter values (Some ps) weights ax vs = Err ValueError).
Proof.
  intros sorter values weights ax vs.
  assert (E : forall ps, forallb (fun p => andb (Rleb 0 p) (Rleb p 1)) ps = true <-> fractions ps).
  { intros ps. rewrite forallb_forall. split; intros H p Hi; specialize (H p Hi).
    - destruct (Rleb_spec 0 p); [|discriminate H]. destruct (Rleb_spec p 1); [lra|discriminate H].
    - destruct (Rleb_spec 0 p); [|lra]. destruct (Rleb_spec p 1); [|lra]. reflexivity. }
  split; [reflexivity|]. split; intros ps Hp; unfold quantiles_ax; cbv zeta.
  - rewrite <- E in Hp. destruct (forallb _ ps); [contradiction Hp; reflexivity|reflexivity].
  - intros Ha. apply E in Hp. rewrite Hp, Ha. reflexivity.
Qed.
Lemma quant_axis_empty : forall sorter values ps weights k ax vs, sorts sorter -> fractions ps -> norm_axis (length (shp values)) ax = Some k -> nth k (shp values) 0%nat = 0%nat ->
  size_of_shape (rem_nth k (shp values)) <> 0%nat -> quantiles_ax sorter values (Some ps) weights ax vs = Err ValueError.
Proof.
  intros sorter values ps weights k ax vs Hs Hp Ha H0 Hn. destruct (sums_fit (shp values) k) eqn:Ef.
  2:{ apply quant_axis_error with (k := k); try assumption. rewrite <- sums_fit_iff, Ef. discriminate. }
  unfold quantiles_ax. cbv zeta.
  assert (E : forallb (fun p => andb (Rleb 0 p) (Rleb p 1)) ps = true).
  { apply forallb_forall. intros p Hi. destruct (Hp p Hi). destruct (Rleb_spec 0 p); [|lra]. destruct (Rleb_spec p 1); [|lra]. reflexivity. }
  rewrite E, Ha, Ef. cbn [negb].
  assert (Hl : length (all_idx (rem_nth k (shp values))) <> 0%nat) by (rewrite all_idx_length; exact Hn).
  destruct (all_idx (rem_nth k (shp values))) as [|i0 rest]; [contradiction Hl; reflexivity|]. cbn [mapM].
  assert (Hnil : sorter [] = []) by (apply Permutation.Permutation_nil, (proj1 (Hs []))).
  unfold lane. rewrite H0. cbn [seq map combine]. rewrite Hnil. destruct vs; reflexivity.
Qed.

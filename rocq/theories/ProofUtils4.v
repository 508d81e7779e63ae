(** Proofs about histogram, flatten and flatlen. *)
From Coq Require Import Permutation.
From Verif Require Import Base ModelLinAlg ModelKernels ModelKDE ModelInterp ModelResample ModelUtils SpecUtils ProofInterp ProofUtils ProofUtils2 ProofUtils3.
Open Scope R_scope.
Notation length := List.length.

(* ---------------------------------------------------------- histogram *)

Lemma half_open_sum (e : nat -> R) (x w : R) m : (forall i, (i < m)%nat -> e i <= e (S i)) ->
  rsum m (fun i => if andb (Rleb (e i) x) (Rltb x (e (S i))) then w else 0) = if andb (Rleb (e O) x) (Rltb x (e m)) then w else 0.
Proof.
  induction m as [|m IH]; intros H; cbn [rsum].
  - destruct (Rleb_spec (e O) x), (Rltb_spec x (e O)); cbn; try reflexivity. lra.
  - rewrite IH by (intros; apply H; lia). pose proof (H m ltac:(lia)).
    assert (N : e O <= e m). { clear - H. induction m as [|m IH]; [lra|]. eapply Rle_trans; [apply IH; intros; apply H; lia|apply H; lia]. }
    destruct (Rleb_spec (e O) x), (Rltb_spec x (e m)), (Rleb_spec (e m) x), (Rltb_spec x (e (S m))); cbn [andb]; lra.
Qed.

Lemma nondecr_spec l : nondecr l = true <-> forall i, (S i < length l)%nat -> vget l i <= vget l (S i).
Proof.
  induction l as [|x l IH]; [split; [intros _ i Hi; cbn in Hi; lia|reflexivity]|]. destruct l as [|y l].
  - split; [intros _ i Hi; cbn in Hi; lia|reflexivity].
  - change (nondecr (x :: y :: l)) with (andb (Rleb x y) (nondecr (y :: l))). rewrite andb_true_iff, IH, Rleb_true. split.
    + intros [H1 H2] [|i] Hi; [exact H1|]. apply (H2 i). cbn in *; lia.
    + intros H. split; [apply (H O); cbn; lia|]. intros i Hi. apply (H (S i)). cbn in *; lia.
Qed.

Lemma bins_partition edges x w : (2 <= length edges)%nat -> nondecr edges = true ->
  rsum (length edges - 1) (fun i => if in_bin edges i x then w else 0)
  = if andb (Rleb (vget edges 0) x) (Rleb x (vget edges (length edges - 1))) then w else 0.
Proof.
  intros Hl Hn. rewrite nondecr_spec in Hn. set (m := (length edges - 2)%nat).
  assert (Lm : length edges = S (S m)) by lia. replace (length edges - 1)%nat with (S m) by lia. cbn [rsum].
  rewrite (rsum_ext m _ (fun i => if andb (Rleb (vget edges i) x) (Rltb x (vget edges (S i))) then w else 0)).
  2:{ intros i Hi. unfold in_bin. destruct (Nat.eqb_spec (S (S i)) (length edges)); [lia|reflexivity]. }
  rewrite half_open_sum by (intros; apply Hn; lia). unfold in_bin. rewrite Lm, Nat.eqb_refl.
  pose proof (Hn m ltac:(lia)).
  assert (N : vget edges 0 <= vget edges m).
  { assert (G : forall k, (k <= m)%nat -> vget edges 0 <= vget edges k); [|apply G; lia].
    induction k as [|k IH]; intros Hk; [lra|]. eapply Rle_trans; [apply IH; lia|apply Hn; lia]. }
  destruct (Rleb_spec (vget edges 0) x), (Rltb_spec x (vget edges m)), (Rleb_spec (vget edges m) x), (Rleb_spec x (vget edges (S m))); cbn [andb]; lra.
Qed.

Lemma lsum_map_seq (f : nat -> R) n : lsum (map f (seq 0 n)) = rsum n f.
Proof.
  induction n as [|n IH]; [reflexivity|]. rewrite seq_S, map_app, lsum_app, IH. cbn [map lsum plus rsum]. lra.
Qed.

Lemma np_histogram_total data ws edges : (2 <= length edges)%nat -> nondecr edges = true ->
  lsum (np_histogram data ws edges) = weight_in (vget edges 0) (vget edges (length edges - 1)) data ws.
Proof.
  intros Hl Hn. unfold np_histogram. rewrite lsum_map_seq, <- sumf_rsum_swap. unfold weight_in. apply sumf_ext. intros [x w] _. cbn [fst snd].
  apply bins_partition; assumption.
Qed.


Lemma histogram_run data edges weights dens prob : length (the_weights data weights) = length data -> nondecr edges = true ->
  histogram data edges weights dens prob =
  Ok (let h1 := if dens then map (fun p : R * R => fst p / snd p) (combine (np_histogram data (the_weights data weights) edges) (diff edges)) else np_histogram data (the_weights data weights) edges in
      if prob then map (fun x => x / lsum (the_weights data weights)) h1 else h1, edges).
Proof.
  intros Hl Hn. unfold histogram. fold (the_weights data weights). rewrite Hl, Nat.eqb_refl, Hn. cbn [negb].
  replace (match weights with Some w => lsum w | None => INR (length data) end) with (lsum (the_weights data weights)); [reflexivity|].
  destruct weights as [w|]; [reflexivity|]. unfold the_weights. clear. induction data as [|a data IH]; [reflexivity|].
  cbn [map lsum length]. rewrite IH, S_INR. ring.
Qed.

Lemma np_histogram_length data ws edges : length (np_histogram data ws edges) = (length edges - 1)%nat.
Proof. unfold np_histogram. rewrite map_length, seq_length. reflexivity. Qed.
Lemma np_histogram_nth data ws edges i : (i < length edges - 1)%nat ->
  vget (np_histogram data ws edges) i = sumf (fun xw : R * R => if in_bin edges i (fst xw) then snd xw else 0) (combine data ws).
Proof.
  intros Hi. unfold np_histogram, vget. set (g := fun i => sumf _ (combine data ws)).
  rewrite (nth_indep _ 0 (g O)) by (rewrite map_length, seq_length; exact Hi). rewrite map_nth, seq_nth by exact Hi. reflexivity.
Qed.
Lemma diff_length l : length (diff l) = (length l - 1)%nat.
Proof. induction l as [|x l IH]; [reflexivity|]. destruct l as [|y l]; [reflexivity|]. cbn [diff length] in *. rewrite IH. lia. Qed.
Lemma diff_nth l i : (S i < length l)%nat -> vget (diff l) i = vget l (S i) - vget l i.
Proof.
  revert i. induction l as [|x l IH]; intros i Hi; [cbn in Hi; lia|]. destruct l as [|y l]; [cbn in Hi; lia|].
  destruct i as [|i]; [reflexivity|]. change (diff (x :: y :: l)) with ((y - x) :: diff (y :: l)). rewrite !vget_cons_S.
  rewrite IH by (cbn in *; lia). reflexivity.
Qed.

(** Each entry. *)
Theorem histogram_entries data edges weights dens prob : length (the_weights data weights) = length data -> nondecr edges = true ->
  exists h, histogram data edges weights dens prob = Ok (h, edges) /\ length h = (length edges - 1)%nat
   /\ forall i, (i < length edges - 1)%nat ->
      vget h i = sumf (fun xw : R * R => if in_bin edges i (fst xw) then snd xw else 0) (combine data (the_weights data weights))
                 / (if dens then vget edges (S i) - vget edges i else 1) / (if prob then lsum (the_weights data weights) else 1).
Proof.
  intros Hl Hn. rewrite histogram_run by assumption. eexists. split; [reflexivity|].
  set (ws := the_weights data weights). set (h0 := np_histogram data ws edges).
  set (h1 := if dens then _ else h0).
  assert (L1 : length h1 = (length edges - 1)%nat).
  { unfold h1, h0. destruct dens; [rewrite map_length, combine_length, diff_length|]; rewrite np_histogram_length; lia. }
  assert (N1 : forall i, (i < length edges - 1)%nat -> vget h1 i = vget h0 i / (if dens then vget edges (S i) - vget edges i else 1)).
  { intros i Hi. unfold h1. destruct dens; [|field].
    rewrite vget_map_combine by (rewrite ?diff_length; unfold h0; rewrite ?np_histogram_length; exact Hi). cbn [fst snd].
    rewrite diff_nth by lia. reflexivity. }
  split; [destruct prob; [rewrite map_length|]; exact L1|]. intros i Hi.
  rewrite <- np_histogram_nth by exact Hi. fold h0. rewrite <- N1 by exact Hi. destruct prob; [|change (vget h1 i = vget h1 i / 1); field].
  unfold vget. set (g := fun x => x / lsum ws). rewrite (nth_indep _ 0 (g 0)) by (rewrite map_length, L1; exact Hi). rewrite map_nth. reflexivity.
Qed.

(** Totals: plain counts. *)
Theorem histogram_counts data edges weights : length (the_weights data weights) = length data -> nondecr edges = true -> (2 <= length edges)%nat ->
  exists h, histogram data edges weights false false = Ok (h, edges)
    /\ lsum h = weight_in (vget edges 0) (vget edges (length edges - 1)) data (the_weights data weights).
Proof. intros Hl Hn H2. rewrite histogram_run by assumption. eexists. split; [reflexivity|]. apply np_histogram_total; assumption. Qed.

Theorem histogram_integral data edges weights prob : length (the_weights data weights) = length data -> incr_list edges -> (2 <= length edges)%nat ->
  exists h, histogram data edges weights true prob = Ok (h, edges)
    /\ rsum (length edges - 1) (fun i => vget h i * (vget edges (S i) - vget edges i))
       = weight_in (vget edges 0) (vget edges (length edges - 1)) data (the_weights data weights)
         / (if prob then lsum (the_weights data weights) else 1).
Proof.
  intros Hl Hi H2. assert (Hn : nondecr edges = true) by (apply nondecr_spec; intros i Hi'; left; apply Hi; lia).
  destruct (histogram_entries data edges weights true prob Hl Hn) as [h (H & L & N)]. exists h. split; [exact H|].
  rewrite <- np_histogram_total by assumption. rewrite lsum_rsum, np_histogram_length.
  set (c := if prob then lsum (the_weights data weights) else 1).
  transitivity (rsum (length edges - 1) (fun i => vget (np_histogram data (the_weights data weights) edges) i * / c)).
  - apply rsum_ext. intros i Hi'. rewrite N by exact Hi'. rewrite np_histogram_nth by exact Hi'. fold c.
    assert (nth i edges 0 < nth (S i) edges 0) by (apply Hi; lia). unfold Rdiv. set (s := sumf _ _). unfold vget.
    replace (s * / (nth (S i) edges 0 - nth i edges 0) * / c * (nth (S i) edges 0 - nth i edges 0))
      with (s * / c * (/ (nth (S i) edges 0 - nth i edges 0) * (nth (S i) edges 0 - nth i edges 0))) by ring.
    rewrite Rinv_l by lra. ring.
  - rewrite rsum_scal_r. reflexivity.
Qed.

(** All data inside: the integral is one. *)
Theorem histogram_integral_one data edges weights : length (the_weights data weights) = length data -> incr_list edges -> (2 <= length edges)%nat ->
  (forall x, In x data -> vget edges 0 <= x <= vget edges (length edges - 1)) -> lsum (the_weights data weights) <> 0 ->
  exists h, histogram data edges weights true true = Ok (h, edges)
    /\ rsum (length edges - 1) (fun i => vget h i * (vget edges (S i) - vget edges i)) = 1.
Proof.
  intros Hl Hi H2 Hin Hw. destruct (histogram_integral data edges weights true Hl Hi H2) as [h [H E]]. exists h. split; [exact H|].
  rewrite E. replace (weight_in _ _ _ _) with (lsum (the_weights data weights)); [field; exact Hw|].
  unfold weight_in. set (ws := the_weights data weights) in *. rewrite <- (map_snd_combine data ws Hl) at 1.
  assert (G : forall l : list (R * R), (forall p, In p l -> vget edges 0 <= fst p <= vget edges (length edges - 1)) ->
    lsum (map snd l) = sumf (fun xw : R * R => if andb (Rleb (vget edges 0) (fst xw)) (Rleb (fst xw) (vget edges (length edges - 1))) then snd xw else 0) l).
  { induction l as [|[x w] l IH]; intros H'; [reflexivity|]. cbn [map lsum]. rewrite sumf_cons, IH by (intros; apply H'; right; assumption).
    cbn [fst snd]. destruct (H' (x, w) (or_introl eq_refl)). cbn [fst] in *.
    rewrite (proj2 (Rleb_true _ _)), (proj2 (Rleb_true x _)) by assumption. reflexivity. }
  apply G. intros [x w] Hx. apply in_combine_l in Hx. apply Hin, Hx.
Qed.

Theorem histogram_errors data edges weights dens prob :
  length (the_weights data weights) <> length data \/ nondecr edges = false -> histogram data edges weights dens prob = Err ValueError.
Proof.
  intros H. unfold histogram. fold (the_weights data weights). destruct (Nat.eqb_spec (length (the_weights data weights)) (length data)) as [E|E]; [|reflexivity].
  destruct H as [H|H]; [contradiction|]. rewrite H. reflexivity.
Qed.

(** Confidence bands: what equal weights change, and weights given to dist1d. *)
From Coq Require Import Permutation ZArith.
From Verif Require Import Base ModelLinAlg ModelKernels ModelKDE ModelInterp ModelResample ModelUtils ModelNd ModelGrid ModelSample
  SpecUtils SpecNd ModelPlot SpecPlot ProofInterp ProofUtils ProofUtils2 ProofNd ProofSample ProofPlot ProofPlot2 ProofPlot3.
Open Scope R_scope.
Notation length := List.length.

Lemma np_interp_top x y m v : increasing x m -> x m <= v -> np_interp x y m v = y m.
Proof.
  intros Hx Hv. destruct (Req_dec v (x m)) as [->|N]; [apply np_interp_knot; [exact Hx|lia]|].
  unfold np_interp. pose proof (incr_nondecr _ _ Hx O m ltac:(lia) ltac:(lia)).
  destruct (Rltb_spec v (x O)); [lra|]. destruct (Rltb_spec (x m) v); [reflexivity|]. exfalso. apply N. lra.
Qed.
Lemma np_interp_in x y m v k : increasing x m -> (k < m)%nat -> x k <= v <= x (S k) ->
  np_interp x y m v = y k + (y (S k) - y k) / (x (S k) - x k) * (v - x k).
Proof.
  intros Hx Hk Hv. assert (Hn := incr_nondecr _ _ Hx). pose proof (Hn O k ltac:(lia) ltac:(lia)). pose proof (Hn (S k) m ltac:(lia) ltac:(lia)).
  unfold np_interp. destruct (Rltb_spec v (x O)); [lra|]. destruct (Rltb_spec (x m) v); [lra|]. apply interp_in; auto.
Qed.
Lemma np_interp_shift x x' y m v : increasing x m -> increasing x' m -> nondecreasing y m -> (forall i, (i <= m)%nat -> x i <= x' i) ->
  np_interp x' y m v <= np_interp x y m v.
Proof.
  intros Hx Hx' Hy H. destruct (Rlt_or_le v (x' O)) as [L|L].
  { unfold np_interp at 1. rewrite (proj2 (Rltb_true _ _) L). apply np_interp_range'; assumption. }
  destruct (Rle_or_lt (x' m) v) as [U|U].
  { rewrite (np_interp_top x' y m v Hx' U). rewrite (np_interp_top x y m v Hx); [lra|]. pose proof (H m ltac:(lia)). lra. }
  destruct (threshold x' v (S m)) as (k & Hk & A & B). { intros i j Hij Hj. left. apply Hx'; lia. }
  destruct k as [|k]; [pose proof (B O ltac:(lia)); lra|]. assert (Hkm : (k < m)%nat). { destruct (Nat.lt_ge_cases k m) as [Q|Q]; [exact Q|]. pose proof (A m ltac:(lia)). lra. }
  pose proof (A k ltac:(lia)) as Vk. pose proof (B (S k) ltac:(lia)) as Vk'. rewrite (np_interp_in x' y m v k) by (auto; lra).
  pose proof (Hx k (S k) ltac:(lia) ltac:(lia)) as D. pose proof (Hx' k (S k) ltac:(lia) ltac:(lia)) as D'.
  set (t := (v - x' k) / (x' (S k) - x' k)).
  assert (T0 : 0 <= t) by (apply Rmult_le_pos; [lra|left; apply Rinv_0_lt_compat; lra]).
  assert (T1 : t <= 1). { apply (Rmult_le_reg_r (x' (S k) - x' k)); [lra|]. unfold t, Rdiv. rewrite Rmult_assoc, Rinv_l by lra. lra. }
  set (u := x k + t * (x (S k) - x k)).
  assert (U1 : u <= v).
  { replace v with (x' k + t * (x' (S k) - x' k)) by (unfold t; field; lra). unfold u. pose proof (H k ltac:(lia)). pose proof (H (S k) ltac:(lia)).
    assert (0 <= (1 - t) * (x' k - x k)) by (apply Rmult_le_pos; lra). assert (0 <= t * (x' (S k) - x (S k))) by (apply Rmult_le_pos; lra). lra. }
  assert (U2 : x k <= u <= x (S k)).
  { unfold u. assert (0 <= t * (x (S k) - x k)) by (apply Rmult_le_pos; lra). assert (0 <= (1 - t) * (x (S k) - x k)) by (apply Rmult_le_pos; lra). lra. }
  eapply Rle_trans; [|apply (np_interp_mono' x y m u v Hx Hy U1)]. rewrite (np_interp_in x y m u k) by assumption. right. f_equal.
  unfold u, t. field. split; lra.
Qed.

(** With equal weights the median and both ends of every band are at most those without weights ... *)
Theorem equal_weights_lower sorter data w qs med bands med' bands' : sorts sorter -> data <> [] -> 0 < w ->
  confidence sorter data None (Some qs) = Ok (med, bands) -> confidence sorter data (Some (map (fun _ => w) data)) (Some qs) = Ok (med', bands') ->
  med' <= med /\ forall j, (j < length qs)%nat -> fst (nth j bands' (0, 0)) <= fst (nth j bands (0, 0)) /\ snd (nth j bands' (0, 0)) <= snd (nth j bands (0, 0)).
Proof.
  intros Hs Hne Hw H1 H2. set (ws := map (fun _ => w) data) in *.
  assert (Lw : length ws = length data) by apply map_length.
  assert (Hp : all_pos ws) by (intros z Hz; apply in_map_iff in Hz; destruct Hz as (? & <- & _); exact Hw).
  destruct (conf_table_none sorter data Hne) as (t & E & T & V). destruct (conf_table_some sorter data ws Hs Hne Lw Hp) as (t' & s' & E' & T' & Hp' & Pw & V').
  rewrite (confidence_run _ _ _ _ t Hne E) in H1. rewrite (confidence_run _ _ _ _ t' Hne E') in H2. injection H1 as <- <-. injection H2 as <- <-.
  destruct (table_facts _ _ _ _ T (map_length _ _) Hne) as (L1 & N1 & D1 & I1 & Y1 & P1). destruct (table_facts _ _ _ _ T' Lw Hne) as (L2 & N2 & D2 & I2 & Y2 & P2).
  assert (ES : snd t = snd t').
  { apply chain_unique; [| |eapply Permutation_trans; [apply Permutation_sym, P1|exact P2]]; apply nondecr_chain; intros i j Hij Hj; [apply Y1|apply Y2]; lia. }
  assert (L0 : (0 < length data)%nat) by (destruct data; [contradiction|cbn; lia]).
  assert (Ls : length s' = length data) by (destruct T' as (_ & _ & Q & _); rewrite <- D2, Q, map_length; reflexivity).
  assert (WV : forall i, (i < length data)%nat -> vget (map snd s') i = w).
  { intros i Hi. assert (Hin : In (vget (map snd s') i) ws) by (eapply Permutation_in; [apply Permutation_sym, Pw|apply nth_In; rewrite map_length; lia]).
    apply in_map_iff in Hin. destruct Hin as (? & Q & _). symmetry. exact Q. }
  assert (SW : lsum ws = INR (length data) * w).
  { unfold ws. clear. induction data as [|a l IH]; [cbn; ring|]. cbn [map lsum length]. rewrite IH, S_INR. ring. }
  assert (XI : forall i, (i <= length (snd t) - 1)%nat -> vget (fst t) i <= vget (fst t') i).
  { intros i Hi. rewrite D1 in Hi. rewrite V by lia. rewrite V' by lia. rewrite (rsum_ext (S i) _ (fun _ => w)) by (intros; apply WV; lia). rewrite rsum_const, SW, S_INR.
    assert (NP : 0 < INR (length data)) by (apply lt_0_INR; lia). replace ((INR i + 1) * w / (INR (length data) * w)) with ((INR i + 1) / INR (length data)) by (field; lra).
    destruct (Nat.eq_dec (length data) 1) as [Q1|Q1].
    - rewrite Q1 in *. replace i with O by lia. cbn. unfold Rdiv. rewrite Rmult_0_l. assert (0 < / 1) by (apply Rinv_0_lt_compat; lra). lra.
    - assert (MP : 0 < INR (length data - 1)) by (apply lt_0_INR; lia). rewrite minus_INR in * by lia. cbn [INR] in *.
      assert (IN : INR i <= INR (length data) - 1) by (change 1 with (INR 1); rewrite <- minus_INR by lia; apply le_INR; lia).
      apply (Rmult_le_reg_r (INR (length data) * (INR (length data) - 1))); [apply Rmult_lt_0_compat; assumption|].
      replace (INR i / (INR (length data) - 1) * (INR (length data) * (INR (length data) - 1))) with (INR i * INR (length data)) by (field; lra).
      replace ((INR i + 1) / INR (length data) * (INR (length data) * (INR (length data) - 1))) with ((INR i + 1) * (INR (length data) - 1)) by (field; lra). lra. }
  assert (G : forall v, conf_at t' v <= conf_at t v).
  { intros v. unfold conf_at. rewrite <- ES in *. apply np_interp_shift; auto. }
  split; [apply G|]. intros j Hj. rewrite !band_nth by exact Hj. cbn [fst snd]. split; apply G.
Qed.
Lemma sort_id l : nondecr_list l -> np_sort l = l.
Proof. intros H. apply chain_unique; [apply chain_sort|apply nondecr_chain, H|apply Permutation_sym, sort_perm]. Qed.
Lemma nondecr_step l : (forall i, (S i < length l)%nat -> nth i l 0 <= nth (S i) l 0) -> nondecr_list l.
Proof.
  intros H i j Hij Hj. replace j with (i + (j - i))%nat in * by lia. set (k := (j - i)%nat) in *. clearbody k. clear Hij.
  induction k as [|k IH]; [rewrite Nat.add_0_r; lra|]. eapply Rle_trans; [apply IH; lia|]. replace (i + S k)%nat with (S (i + k)) by lia. apply H. lia.
Qed.
(** ... and not the same: for the data 0, 1 the median drawn is 0 instead of 1/2. *)
Theorem equal_weights_refuted : exists sorter data w med med', sorts sorter /\ data = [0; 1] /\ w = 1
  /\ confidence sorter data None (Some []) = Ok (med, []) /\ confidence sorter data (Some (map (fun _ => w) data)) (Some []) = Ok (med', []) /\ med = 1 / 2 /\ med' = 0.
Proof.
  exists isort, [0; 1], 1. eexists _, _. split; [apply isort_sorts|]. split; [reflexivity|]. split; [reflexivity|]. split; [reflexivity|]. split; [reflexivity|].
  assert (N : nondecr_list [0; 1]) by (apply nondecr_step; intros [|i] Hi; cbn in *; [lra|lia]). split.
  - cbn [fst snd]. rewrite (sort_id _ N). unfold conf_at. cbn [length seq map fst snd Nat.sub]. rewrite (np_interp_in _ _ 1 (1 / 2) 0); [cbn; field| |lia|cbn; lra].
    apply step_incr. intros [|i] Hi; [cbn; lra|lia].
  - cbn [map combine]. rewrite isort_id by exact N. unfold conf_at. cbn [map fst snd length Nat.sub cumsum1 cumsum1_from lsum].
    set (x := [(0 + 1) / (1 + (1 + 0)); (0 + 1 + 1) / (1 + (1 + 0))]). replace (1 / 2) with (vget x 0) by (unfold x; cbn; field).
    rewrite np_interp_knot; [reflexivity| |lia]. apply step_incr. intros [|i] Hi; [unfold x; cbn; lra|lia].
Qed.

(** dist1d draws the bands of the unweighted data: they may contain an arbitrarily small part of the weight. *)
Theorem dist1d_bands_unweighted sorter data weights quantiles : dist1d_bands sorter data weights quantiles = dist1d_bands sorter data None quantiles.
Proof. reflexivity. Qed.
Theorem dist1d_bands_count sorter data weights qs med bands j : sorts sorter -> data <> [] ->
  dist1d_bands sorter data weights (Some qs) = Ok (med, bands) -> (j < length qs)%nat -> 0 <= nth j qs 0 <= 1 ->
  nth j qs 0 * (INR (length data) - 1) - 1 < weight_in (fst (nth j bands (0, 0))) (snd (nth j bands (0, 0))) data (map (fun _ => 1) data)
  /\ weight_between (fst (nth j bands (0, 0))) (snd (nth j bands (0, 0))) data (map (fun _ => 1) data) <= nth j qs 0 * (INR (length data) - 1) + 1.
Proof. intros Hs Hne HC. exact (confidence_count sorter data qs med bands j Hs Hne HC). Qed.
Theorem dist1d_bands_refuted : forall eps, 0 < eps -> exists sorter data ws med lo hi, sorts sorter /\ data <> [] /\ length ws = length data /\ all_pos ws
  /\ dist1d_bands sorter data (Some ws) (Some [1 / 2]) = Ok (med, [(lo, hi)]) /\ weight_in lo hi data ws < eps * lsum ws.
Proof.
  intros eps He. exists isort, [0; 1; 2], [1 + / eps; 1; 1]. eexists _, _, _. split; [apply isort_sorts|]. split; [discriminate|]. split; [reflexivity|].
  pose proof (Rinv_0_lt_compat _ He). split; [intros w [<-|[<-|[<-|[]]]]; lra|]. split; [reflexivity|].
  assert (N : nondecr_list [0; 1; 2]) by (apply nondecr_step; intros [|[|i]] Hi; cbn in *; [lra|lra|lia]).
  assert (E : conf_at (map (fun i => INR i / INR (length (np_sort [0; 1; 2]) - 1)) (seq 0 (length (np_sort [0; 1; 2]))), np_sort [0; 1; 2]) (1 / 2 - 1 / 2 / 2) = 1 / 2).
  { rewrite (sort_id _ N). unfold conf_at. cbn [length seq map fst snd Nat.sub]. rewrite (np_interp_in _ _ 2 _ 0); [cbn; field| |lia|cbn; lra].
    apply step_incr. intros [|[|i]] Hi; [cbn; lra|cbn; lra|lia]. }
  cbn [fst snd]. rewrite E. unfold weight_in. cbn [combine]. rewrite !sumf_cons, sumf_nil. cbn [fst snd]. rewrite (proj2 (Rleb_false (1 / 2) 0)) by lra. cbn [andb].
  match goal with |- context [Rleb 2 ?h] => assert (U : h < 2); [|set (hh := h) in *] end.
  { rewrite (sort_id _ N). unfold conf_at. cbn [length seq map fst snd Nat.sub]. rewrite (np_interp_in _ _ 2 _ 1); [cbn; lra| |lia|cbn; lra].
    apply step_incr. intros [|[|i]] Hi; [cbn; lra|cbn; lra|lia]. }
  rewrite (proj2 (Rleb_false 2 hh)) by lra. rewrite andb_false_r. cbn [lsum].
  assert (eps * (1 + / eps + (1 + (1 + 0))) = 3 * eps + 1) by (field; lra). destruct (andb _ _); lra.
Qed.

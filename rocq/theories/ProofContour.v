(** C129: contours of data. *)
From Coq Require Import ZArith Permutation FunctionalExtensionality.
From Verif Require Import Base ModelLinAlg ModelUtils ModelNd ModelGrid ModelSample ModelPlot ModelDist ModelContour
  SpecUtils SpecNd SpecPlot SpecContour ProofUtils ProofNd ProofNd2 ProofPlot2 ProofPlot3 ProofDist3.
Open Scope R_scope.
Notation length := List.length.

Lemma rsum_window n p (g : nat -> R) : rsum (n + 2 * p) (fun i => if andb (Nat.leb p i) (Nat.ltb i (p + n)) then g (i - p)%nat else 0) = rsum n g.
Proof.
  replace (n + 2 * p)%nat with (p + (n + p))%nat by lia. rewrite !rsum_app.
  rewrite (rsum_zero_ext p).
  2:{ intros k Hk. destruct (Nat.leb_spec p k); [lia|reflexivity]. }
  rewrite (rsum_zero_ext p (fun k => if andb (Nat.leb p (p + (n + k))) _ then _ else _)).
  2:{ intros k Hk. destruct (Nat.ltb_spec (p + (n + k)) (p + n)); [lia|]. rewrite Bool.andb_false_r. reflexivity. }
  rewrite Rplus_0_l, Rplus_0_r. apply rsum_ext. intros k Hk. destruct (Nat.leb_spec p (p + k)); [|lia]. destruct (Nat.ltb_spec (p + k) (p + n)); [|lia].
  cbn [andb]. f_equal. lia.
Qed.

(** Padding with zeros changes neither the entries nor the sums. *)
Lemma pad_zero_sum (f : R -> R) (a : nda) n m p : shp a = [n; m] -> f 0 = 0 ->
  asum (shp (pad_nd p 0 a)) (fun idx => f (at_ (pad_nd p 0 a) idx)) = asum (shp a) (fun idx => f (at_ a idx)).
Proof.
  intros S F. unfold pad_nd. cbn [shp at_]. rewrite S. cbn [map asum].
  rewrite <- (rsum_window n p (fun i => rsum m (fun j => f (at_ a [i; j])))). apply rsum_ext. intros i Hi.
  rewrite <- (rsum_window m p (fun j => f (at_ a [(i - p)%nat; j]))). cbn [pad_interior map].
  destruct (andb (Nat.leb p i) (Nat.ltb i (p + n))); cbn [andb].
  - apply rsum_ext. intros j Hj. rewrite Bool.andb_true_r. destruct (andb (Nat.leb p j) (Nat.ltb j (p + m))); [reflexivity|exact F].
  - apply rsum_zero_ext. intros j Hj. exact F.
Qed.
Lemma pad_zero_entry (a : nda) n m p v : shp a = [n; m] -> entry a 0 -> (entry (pad_nd p 0 a) v <-> entry a v).
Proof.
  intros S H0. split.
  - intros (idx & Hi & E). unfold pad_nd in *. cbn [shp at_] in *. destruct (pad_interior p (shp a) idx) eqn:EP.
    + destruct (pad_interior_inv p (shp a) idx) as (j & Hj & ->); [|exact EP|].
      * apply inb_length in Hi. cbn [shp] in Hi. rewrite map_length in Hi. exact Hi.
      * exists j. split; [exact Hj|]. rewrite (proj2 (pad_interior_shift p (shp a) j Hj)) in E. exact E.
    + subst v. exact H0.
  - intros (j & Hj & E). exists (shift_idx p j). unfold pad_nd. cbn [shp at_]. destruct (pad_interior_shift p (shp a) j Hj) as [E1 E2]. rewrite E1, E2.
    split; [|exact E]. unfold shift_idx. clear - Hj. induction Hj; cbn [map]; constructor; [lia|assumption].
Qed.
Lemma pad_zero_level (a : nda) n m p q v : shp a = [n; m] -> entry a 0 -> (level_for (pad_nd p 0 a) q v <-> level_for a q v).
Proof.
  intros S H0.
  assert (EA : forall u, above (pad_nd p 0 a) u = above a u).
  { intros u. apply (pad_zero_sum (fun x => if Rltb u x then x else 0) a n m p S). destruct (Rltb u 0); reflexivity. }
  assert (ET : total_of (pad_nd p 0 a) = total_of a) by (apply (pad_zero_sum (fun x => x) a n m p S); reflexivity).
  unfold level_for. rewrite ET, EA, (pad_zero_entry a n m p v S H0). split; (intros (H1 & H2 & H3); split; [exact H1|split]).
  - destruct H2 as [H2|H2]; [left; intros u Hu; apply H2; apply (pad_zero_entry a n m p u S H0), Hu|right; exact H2].
  - intros u Hu. rewrite <- (EA u). apply H3. apply (pad_zero_entry a n m p u S H0), Hu.
  - destruct H2 as [H2|H2]; [left; intros u Hu; apply H2; apply (pad_zero_entry a n m p u S H0), Hu|right; exact H2].
  - intros u Hu. rewrite (EA u). apply H3. apply (pad_zero_entry a n m p u S H0), Hu.
Qed.

(** What the preparation does to the histogram. *)
Lemma prep_pad ex ey hist pad cs h : prep_hist [ex; ey] hist pad = Ok (cs, h) ->
  (pad_count pad = 0%nat /\ h = hist) \/ exists lo, pad_count pad <> 0%nat /\ h = pad_nd (pad_count pad) lo hist /\ entry hist lo /\ forall v, entry hist v -> lo <= v.
Proof.
  unfold prep_hist. intros H. destruct (pad_count pad) as [|p] eqn:EP.
  - left. split; [reflexivity|]. cbn [bind fst snd] in H. destruct (match_edges [ex; ey] hist) as [es|]; [|discriminate H]. cbn [bind] in H.
    destruct (negb _); [discriminate H|]. apply (f_equal (fun r => match r with Ok p => snd p | Err _ => hist end)) in H. symmetry. exact H.
  - right. unfold pad_hist in H.
    assert (HF : forall v, entry hist v <-> In v (flatten_nd hist)).
    { intros v. unfold entry, flatten_nd. rewrite in_map_iff. split; intros (idx & A & B); exists idx; [split; [exact B|apply inb_all_idx, A]|split; [apply inb_all_idx, B|exact A]]. }
    destruct (flatten_nd hist) as [|v vs]; [discriminate H|]. destruct (mapM (pad_edge (S p)) [ex; ey]) as [es|]; [|discriminate H]. cbn [bind fst snd] in H.
    destruct (match_edges es (pad_nd (S p) (vmin v vs) hist)) as [cs'|]; [|discriminate H]. cbn [bind] in H. destruct (negb _); [discriminate H|].
    apply (f_equal (fun r => match r with Ok p => snd p | Err _ => hist end)) in H. cbn [snd] in H. exists (vmin v vs). pose proof (vmin_min v vs) as [M1 M2]. split; [discriminate|]. split; [symmetry; exact H|]. split; [apply HF, M1|]. intros u Hu. apply M2, HF, Hu.
Qed.

(** The weights of the bins are those of the histogram. *)
Lemma in_bin_within e i x : in_bin e i x = true <-> within e i x.
Proof.
  unfold in_bin, within, vget. rewrite Bool.andb_true_iff, Rleb_true. destruct (Nat.eqb_spec (S (S i)) (length e)) as [E|E].
  - rewrite Rleb_true. split; intros [H1 H2]; (split; [exact H1|]); [destruct (Rle_lt_or_eq_dec _ _ H2); [left; assumption|right; split; assumption]|].
    destruct H2 as [H2|[_ H2]]; lra.
  - rewrite Rltb_true. split; intros [H1 H2]; (split; [exact H1|]); [left; exact H2|]. destruct H2 as [H2|[H2 _]]; [exact H2|contradiction].
Qed.
Lemma collected_sum (P : R * R -> Prop) f data ws w : (forall p, f p = true <-> P p) -> collected P data ws w ->
  sumf (fun xyw : R * R * R => if f (fst xyw) then snd xyw else 0) (combine data ws) = w.
Proof.
  intros Hf H. induction H as [|p ps x xs w HP H IH|p ps x xs w HP H IH]; cbn [combine]; [reflexivity| |]; rewrite sumf_cons, IH; cbn [fst snd].
  - rewrite (proj2 (Hf p) HP). reflexivity.
  - destruct (f p) eqn:E; [exfalso; apply HP, Hf, E|ring].
Qed.
Lemma bin_weights_hist ex ey data ws w i j : bin_weights ex ey data ws w -> (S i < length ex)%nat -> (S j < length ey)%nat -> bin_weight2d ex ey data ws i j = w i j.
Proof.
  intros H Hi Hj. unfold bin_weight2d. apply (collected_sum (fun p => within ex i (fst p) /\ within ey j (snd p)) (fun p => andb (in_bin ex i (fst p)) (in_bin ey j (snd p)))).
  - intros p. rewrite Bool.andb_true_iff, !in_bin_within. reflexivity.
  - apply H; assumption.
Qed.

Section Bins.
Context (ex ey : list R) (data : list (R * R)) (ws : list R) (w : nat -> nat -> R).
Context (HB : bin_weights ex ey data ws w) (L1 : (2 <= length ex)%nat) (L2 : (2 <= length ey)%nat) (I1 : incr_list ex) (I2 : incr_list ey).
Let nx := (length ex - 1)%nat.
Let ny := (length ey - 1)%nat.
Let value := bin_density ex ey w.
Let W := grid_weight ex ey w.
Let a := hist2d_array ex ey data ws.

Lemma area_pos i j : (i < nx)%nat -> (j < ny)%nat -> 0 < bin_area ex ey i j.
Proof.
  unfold nx, ny. intros Hi Hj. pose proof (I1 i (S i) ltac:(lia) ltac:(lia)). pose proof (I2 j (S j) ltac:(lia) ltac:(lia)). unfold bin_area. apply Rmult_lt_0_compat; lra.
Qed.
Lemma value_hist i j : 0 < W -> (i < nx)%nat -> (j < ny)%nat -> at_ a [i; j] = value i j.
Proof.
  intros HW Hi Hj. unfold a, hist2d_array. cbn [at_ nth]. unfold density2d, value, bin_density. fold W.
  replace (rsum (length ex - 1) _) with W.
  2:{ unfold W, grid_weight, bins_weight. apply rsum_ext. intros i' Hi'. apply rsum_ext. intros j' Hj'. symmetry. apply bin_weights_hist; [exact HB|lia|lia]. }
  unfold nx, ny in *. rewrite (bin_weights_hist ex ey data ws w i j HB) by lia.
  pose proof (I1 i (S i) ltac:(lia) ltac:(lia)). pose proof (I2 j (S j) ltac:(lia) ltac:(lia)). unfold bin_area, vget. field. lra.
Qed.
Lemma entry_hist v : 0 < W -> (entry a v <-> exists i j, (i < nx)%nat /\ (j < ny)%nat /\ value i j = v).
Proof.
  intros HW. rewrite (entry2 a nx ny v eq_refl). split; intros (i & j & Hi & Hj & E); exists i, j; (split; [exact Hi|split; [exact Hj|]]); rewrite <- E; [symmetry|]; apply value_hist; assumption.
Qed.
Lemma sum_hist (f : R -> R) : 0 < W -> asum (shp a) (fun idx => f (at_ a idx)) = rsum nx (fun i => rsum ny (fun j => f (value i j))).
Proof.
  intros HW. unfold a at 1, hist2d_array. cbn [shp asum]. apply rsum_ext. intros i Hi. apply rsum_ext. intros j Hj. rewrite value_hist by assumption. reflexivity.
Qed.
Lemma sum_total : 0 < W -> total_of a = rsum nx (fun i => rsum ny (fun j => value i j)).
Proof. intros HW. exact (sum_hist (fun x => x) HW). Qed.
Lemma weights_nonneg i j : (forall v, In v ws -> 0 <= v) -> (i < nx)%nat -> (j < ny)%nat -> 0 <= w i j.
Proof. intros H Hi Hj. unfold nx, ny in *. rewrite <- (bin_weights_hist ex ey data ws w i j HB) by lia. apply bin_weight_nonneg, H. Qed.
Lemma value_nonneg i j : (forall v, In v ws -> 0 <= v) -> 0 < W -> (i < nx)%nat -> (j < ny)%nat -> 0 <= value i j.
Proof.
  intros H HW Hi Hj. unfold value, bin_density. fold W. apply Rmult_le_pos; [apply weights_nonneg; assumption|]. left. apply Rinv_0_lt_compat, Rmult_lt_0_compat; [apply area_pos; assumption|exact HW].
Qed.

(** The levels are found from the prepared histogram. *)
Lemma contour_run quantiles pad p : (forall v, In v ws -> 0 <= v) -> 0 < W -> pads_by pad p ->
  exists xs ys h levels ls, contour ex ey data ws quantiles None pad = Ok ([xs; ys], h, levels) /\ Forall2 (level_for h) (fst (default_quantiles quantiles None)) ls
  /\ Permutation ls levels /\ nondecr_list levels /\ shp h = [(nx + 2 * p)%nat; (ny + 2 * p)%nat]
  /\ (forall i j, (i < nx)%nat -> (j < ny)%nat -> at_ h [i + p; j + p]%nat = value i j
       /\ at_ xs [i + p; j + p]%nat = (nth i ex 0 + nth (S i) ex 0) / 2 /\ at_ ys [i + p; j + p]%nat = (nth j ey 0 + nth (S j) ey 0) / 2)
  /\ (p = 0%nat /\ h = a \/ exists lo, p <> 0%nat /\ h = pad_nd p lo a /\ entry a lo /\ forall v, entry a v -> lo <= v).
Proof.
  intros Hw HW HP. assert (EP : pad_count pad = p) by (destruct HP; reflexivity).
  destruct (padded_prep ex ey a pad p HP L1 L2 I1 I2) as (xs & ys & h & E & Sh & _ & _ & HV).
  { unfold a, hist2d_array. cbn [shp map]. f_equal; [lia|]. f_equal. lia. }
  pose proof (prep_pad _ _ _ _ _ _ E) as HC. rewrite EP in HC.
  assert (Hn : forall v, entry a v -> 0 <= v).
  { intros v Hv. apply (entry_hist v HW) in Hv. destruct Hv as (i & j & Hi & Hj & <-). apply value_nonneg; assumption. }
  assert (HT : 0 < total_of a).
  { destruct (Rle_lt_dec (total_of a) 0) as [H|H]; [|exact H]. exfalso. assert (HS : forall i j, (i < nx)%nat -> (j < ny)%nat -> w i j <= 0).
    { intros i j Hi Hj. rewrite (sum_total HW) in H.
      assert (H1 : value i j <= 0).
      { eapply Rle_trans; [|exact H]. eapply Rle_trans; [apply (rsum_term_le ny (fun j' => value i j') j Hj); intros; apply value_nonneg; assumption|].
        apply (rsum_term_le nx (fun i' => rsum ny (fun j' => value i' j')) i Hi). intros; apply rsum_nonneg; intros; apply value_nonneg; assumption. }
      assert (HA : 0 < bin_area ex ey i j * W) by (apply Rmult_lt_0_compat; [apply area_pos; assumption|exact HW]).
      unfold value, bin_density in H1. fold W in H1. pose proof (area_pos i j Hi Hj) as HAi.
      replace (w i j) with (w i j / (bin_area ex ey i j * W) * (bin_area ex ey i j * W)) by (field; split; apply Rgt_not_eq; assumption).
      rewrite <- (Rmult_0_l (bin_area ex ey i j * W)). apply Rmult_le_compat_r; [lra|exact H1]. }
    assert (W <= 0); [|lra]. unfold W, grid_weight, bins_weight. fold nx. fold ny. apply Rle_trans with (rsum nx (fun _ => 0)); [|rewrite rsum_zero; lra]. apply rsum_le. intros i Hi.
    apply Rle_trans with (rsum ny (fun _ => 0)); [|rewrite rsum_zero; lra]. apply rsum_le. intros j Hj. apply HS; assumption. }
  assert (HH : (forall v, entry h v -> 0 <= v) /\ 0 < total_of h).
  { destruct HC as [[_ ->]|(lo & _ & -> & E1 & E2)]; [split; assumption|]. assert (Hlo : 0 <= lo) by (apply Hn, E1). split.
    - intros v (idx & Hi & Ev). unfold pad_nd in *. cbn [shp at_] in *. destruct (pad_interior p (shp a) idx) eqn:Ep; [|lra].
      destruct (pad_interior_inv p (shp a) idx) as (j & Hj & ->); [apply inb_length in Hi; cbn [shp] in Hi; rewrite map_length in Hi; exact Hi|exact Ep|].
      apply Hn. exists j. split; [exact Hj|]. rewrite (proj2 (pad_interior_shift p (shp a) j Hj)) in Ev. exact Ev.
    - apply Rlt_le_trans with (1 := HT). assert (EZ : total_of (pad_nd p 0 a) = total_of a) by (apply (pad_zero_sum (fun x => x) a nx ny p eq_refl eq_refl)).
      rewrite <- EZ. unfold total_of. cbn [pad_nd shp]. rewrite !asum_list. apply sumf_le. intros idx _. cbn [pad_nd at_]. destruct (pad_interior p (shp a) idx); lra. }
  destruct HH as [Hn' HT'].
  destruct (dfm_levels_spec h quantiles None Hn' HT') as (sg & levels & qs & ls & Ed & Eq & F & P & N).
  exists xs, ys, h, levels, ls. split; [|split; [|split; [exact P|split; [exact N|split; [rewrite Sh; reflexivity|split; [|exact HC]]]]]].
  - unfold contour. fold a. rewrite E. cbn [bind fst snd contour_levels]. rewrite Ed. reflexivity.
  - rewrite <- Eq. exact F.
  - intros i j Hi Hj. destruct (HV i j) as (V1 & V2 & V3); [repeat constructor; assumption|]. split; [rewrite V1; apply value_hist; assumption|split; assumption].
Qed.

Section Equal.
Context (A : R) (HA : equal_areas ex ey A).
Lemma value_equal i j : (i < nx)%nat -> (j < ny)%nat -> value i j = w i j / (A * W).
Proof. unfold nx, ny. intros Hi Hj. unfold value, bin_density. rewrite HA by lia. reflexivity. Qed.
Lemma above_equal v : 0 < W -> above a v = denser ex ey w v / (A * W).
Proof.
  intros HW. unfold above. rewrite (sum_hist (fun x => if Rltb v x then x else 0) HW). unfold denser, bins_weight. fold nx. fold ny. fold value.
  unfold Rdiv. rewrite <- rsum_scal_r. apply rsum_ext. intros i Hi.
  rewrite <- rsum_scal_r. apply rsum_ext. intros j Hj. destruct (Rltb v (value i j)); [|ring]. apply value_equal; assumption.
Qed.
Lemma total_equal : 0 < W -> total_of a = W / (A * W).
Proof.
  intros HW. rewrite (sum_total HW). unfold W at 1, grid_weight, bins_weight. fold nx. fold ny. unfold Rdiv. rewrite <- rsum_scal_r. apply rsum_ext. intros i Hi.
  rewrite <- rsum_scal_r. apply rsum_ext. intros j Hj. apply value_equal; assumption.
Qed.

Lemma equal_bins quantiles pad p : (forall v, In v ws -> 0 <= v) -> 0 < W -> pads_by pad p -> p = 0%nat \/ (exists i j, (i < nx)%nat /\ (j < ny)%nat /\ w i j = 0) ->
  exists cs h levels ls, contour ex ey data ws quantiles None pad = Ok (cs, h, levels) /\ Permutation ls levels /\ nondecr_list levels
  /\ (forall i j, (i < nx)%nat -> (j < ny)%nat -> at_ h [i + p; j + p]%nat = value i j)
  /\ Forall2 (fun q v => 0 <= q -> denser ex ey w v <= q * W
       /\ forall i j, (i < nx)%nat -> (j < ny)%nat -> value i j < v -> q * W < denser ex ey w (value i j) + w i j)
     (fst (default_quantiles quantiles None)) ls.
Proof.
  intros Hw HW HP Hpad. destruct (contour_run quantiles pad p Hw HW HP) as (xs & ys & h & levels & ls & EC & F & P & N & _ & HV & HC).
  assert (Hp : 0 < A) by (rewrite <- (HA 0%nat 0%nat) by lia; apply area_pos; unfold nx, ny; lia).
  assert (HAW : 0 < A * W) by (apply Rmult_lt_0_compat; assumption).
  assert (Hn : forall v, entry a v -> 0 <= v).
  { intros v Hv. apply (entry_hist v HW) in Hv. destruct Hv as (i & j & Hi & Hj & <-). apply value_nonneg; assumption. }
  assert (ET : total_of a = W / (A * W)) by (apply total_equal; assumption).
  assert (HT : 0 < total_of a) by (rewrite ET; apply Rdiv_lt_0_compat; lra).
  assert (HL : forall q v, level_for h q v -> level_for a q v).
  { intros q v Hl. destruct HC as [[_ ->]|(lo & Hne & -> & H1 & H2)]; [exact Hl|]. destruct Hpad as [Hpad|(i & j & Hi & Hj & H0)]; [contradiction|].
    assert (E0 : entry a 0). { apply (entry_hist 0 HW). exists i, j. split; [exact Hi|]. split; [exact Hj|]. rewrite value_equal, H0 by assumption. field. lra. }
    assert (lo = 0) by (pose proof (H2 0 E0); pose proof (Hn lo H1); lra). subst lo.
    apply (pad_zero_level a nx ny p q v eq_refl E0), Hl. }
  exists [xs; ys], h, levels, ls. split; [exact EC|]. split; [exact P|]. split; [exact N|]. split; [intros i j Hi Hj; apply (proj1 (HV i j Hi Hj))|].
  clear - F HL HAW HA HB HW Hp Hn HT ET L1 L2 I1 I2. induction F as [|q v qs ls Hq F IH]; constructor; [|exact IH].
  intros Hq0. destruct (level_encloses a q v Hq0 ltac:(lra) Hn (HL q v Hq)) as [H1 H2].
  rewrite ET in H1, H2. rewrite (above_equal v HW) in H1. split.
  - apply Rmult_le_reg_r with (/ (A * W)); [apply Rinv_0_lt_compat; exact HAW|]. unfold Rdiv in H1. lra.
  - intros i j Hi Hj Hlt. specialize (H2 (value i j) ltac:(apply (entry_hist _ HW); exists i, j; auto) Hlt).
    rewrite (above_equal _ HW) in H2.
    assert (EV : value i j = w i j / (A * W)) by (apply value_equal; assumption).
    refine (Rmult_lt_reg_r (/ (A * W)) _ _ (Rinv_0_lt_compat _ HAW) _). rewrite Rmult_plus_distr_r.
    change (w i j * / (A * W)) with (w i j / (A * W)). rewrite <- EV. unfold Rdiv in H2. lra.
Qed.
End Equal.
End Bins.

(** Given levels are used as they are. *)
Lemma given_levels ex ey data ws quantiles l pad : (2 <= length ex)%nat -> (2 <= length ey)%nat -> incr_list ex -> incr_list ey ->
  exists cs h, contour ex ey data ws quantiles (Some l) pad = Ok (cs, h, l).
Proof.
  intros L1 L2 I1 I2. assert (HP : pads_by pad (pad_count pad)) by (destruct pad; constructor).
  destruct (padded_prep ex ey (hist2d_array ex ey data ws) pad (pad_count pad) HP L1 L2 I1 I2) as (xs & ys & h & E & _).
  { unfold hist2d_array. cbn [shp map]. f_equal; [lia|]. f_equal. lia. }
  exists [xs; ys], h. unfold contour. rewrite E. reflexivity.
Qed.

(** One fraction: the level is the one of the prepared histogram. *)
Lemma contour_one ex ey data ws w q pad p v : bin_weights ex ey data ws w -> (2 <= length ex)%nat -> (2 <= length ey)%nat -> incr_list ex -> incr_list ey ->
  (forall x, In x ws -> 0 <= x) -> 0 < grid_weight ex ey w -> pads_by pad p ->
  (forall lo, p <> 0%nat -> entry (hist2d_array ex ey data ws) lo -> (forall u, entry (hist2d_array ex ey data ws) u -> lo <= u) -> level_for (pad_nd p lo (hist2d_array ex ey data ws)) q v) ->
  (p = 0%nat -> level_for (hist2d_array ex ey data ws) q v) ->
  exists cs h, contour ex ey data ws (Some [q]) None pad = Ok (cs, h, [v]).
Proof.
  intros HB L1 L2 I1 I2 Hw HW HP H1 H2. destruct (contour_run ex ey data ws w HB L1 L2 I1 I2 (Some [q]) pad p Hw HW HP) as (xs & ys & h & levels & ls & EC & F & P & _ & _ & _ & HC).
  cbn [default_quantiles fst] in F. inversion F as [|q' u qs us Hu F' E1 E2]. subst. inversion F'. subst. apply Permutation_length_1_inv in P. subst levels.
  exists [xs; ys], h. rewrite EC. replace u with v; [reflexivity|]. apply (level_unique h q); [|exact Hu].
  destruct HC as [[Ep ->]|(lo & Hne & -> & A & B)]; [apply H2, Ep|apply H1; assumption].
Qed.

Lemma incr3 (a b c : R) : a < b -> b < c -> incr_list [a; b; c].
Proof. intros H1 H2 i j Hi Hj. cbn in Hj. destruct i as [|[|[|i]]], j as [|[|[|j]]]; try lia; cbn; lra. Qed.
Lemma collected_eq P d l x y : collected P d l x -> x = y -> collected P d l y.
Proof. intros H <-. exact H. Qed.
Ltac hit := apply collected_hit; [cbn [fst snd]; unfold within; cbn; lra|].
Ltac miss := apply collected_miss; [cbn [fst snd]; unfold within; cbn; lra|].
Ltac decide_all := repeat match goal with |- context[Rltb ?a ?b] => first [rewrite (proj2 (Rltb_true a b)) by lra | rewrite (proj2 (Rltb_false a b)) by lra] end.

(** Bins of unequal areas. *)
Definition ux : list R := [0; 1; 10 / 9; 10 / 9 + 1 / 8].
Definition uy : list R := [0; 1].
Definition udata : list (R * R) := [(1 / 2, 1 / 2); (19 / 18, 1 / 2); (10 / 9 + 1 / 16, 1 / 2)].
Definition uw (i j : nat) : R := match i, j with 0%nat, 0%nat => 10 | 1%nat, 0%nat => 1 | 2%nat, 0%nat => 1 | _, _ => 0 end.
Lemma u_weights : bin_weights ux uy udata [10; 1; 1] uw.
Proof.
  intros i j Hi Hj. cbn in Hi, Hj. destruct j as [|j]; [|lia]. destruct i as [|[|[|i]]]; [| | |lia]; cbn [uw]; unfold udata, ux, uy; (eapply collected_eq; [|apply Rplus_0_r]).
  - hit. miss. miss. constructor.
  - miss. hit. miss. constructor.
  - miss. miss. hit. constructor.
Qed.
Lemma u_incr : incr_list ux /\ incr_list uy.
Proof.
  split; intros i j Hi Hj; cbn in Hj; unfold ux, uy; [destruct i as [|[|[|[|i]]]], j as [|[|[|[|j]]]]|destruct i as [|[|i]], j as [|[|j]]]; try lia; cbn; lra.
Qed.
Lemma u_total : grid_weight ux uy uw = 12.
Proof. unfold grid_weight, bins_weight. cbn. ring. Qed.
Lemma u_density i : (i < 3)%nat -> bin_density ux uy uw i 0 = match i with 0%nat => 10 / 12 | 1%nat => 9 / 12 | _ => 8 / 12 end.
Proof. intros Hi. unfold bin_density. rewrite u_total. unfold bin_area, ux, uy. destruct i as [|[|[|i]]]; [| | |lia]; cbn; field. Qed.
Lemma u_level : level_for (hist2d_array ux uy udata [10; 1; 1]) (71 / 100) (9 / 12).
Proof.
  destruct u_incr as [I1 I2]. assert (HW : 0 < grid_weight ux uy uw) by (rewrite u_total; lra).
  assert (L1 : (2 <= length ux)%nat) by (cbn; lia). assert (L2 : (2 <= length uy)%nat) by (cbn; lia).
  assert (EE : forall v, entry (hist2d_array ux uy udata [10; 1; 1]) v <-> v = 10 / 12 \/ v = 9 / 12 \/ v = 8 / 12).
  { intros v. rewrite (entry_hist ux uy udata [10; 1; 1] uw u_weights L1 L2 I1 I2 v HW). cbn [length ux uy Nat.sub]. split.
    - intros (i & j & Hi & Hj & <-). destruct j; [|lia]. rewrite u_density by exact Hi. destruct i as [|[|[|i]]]; [auto|auto|auto|lia].
    - intros [->|[->| ->]]; [exists 0%nat|exists 1%nat|exists 2%nat]; exists 0%nat; (split; [lia|split; [lia|]]); rewrite u_density by lia; reflexivity. }
  assert (ES : forall f : R -> R, asum (shp (hist2d_array ux uy udata [10; 1; 1])) (fun idx => f (at_ (hist2d_array ux uy udata [10; 1; 1]) idx)) = f (10 / 12) + f (9 / 12) + f (8 / 12)).
  { intros f. rewrite (sum_hist ux uy udata [10; 1; 1] uw u_weights L1 L2 I1 I2 f HW). cbn [length ux uy Nat.sub rsum]. rewrite !u_density by lia. ring. }
  assert (EA : forall v, above (hist2d_array ux uy udata [10; 1; 1]) v = (if Rltb v (10 / 12) then 10 / 12 else 0) + (if Rltb v (9 / 12) then 9 / 12 else 0) + (if Rltb v (8 / 12) then 8 / 12 else 0)).
  { intros v. apply (ES (fun x => if Rltb v x then x else 0)). }
  assert (ET : total_of (hist2d_array ux uy udata [10; 1; 1]) = 27 / 12). { transitivity (10 / 12 + 9 / 12 + 8 / 12); [apply (ES (fun x => x))|field]. }
  split; [apply EE; auto|]. rewrite ET. split.
  - right. rewrite EA. decide_all. lra.
  - intros u Hu Hlt. apply EE in Hu. assert (u = 8 / 12) by lra. subst u. rewrite EA. decide_all. lra.
Qed.
Lemma unequal_refuted : exists ex ey data ws w q cs h v, bin_weights ex ey data ws w /\ incr_list ex /\ incr_list ey /\ (forall x, In x ws -> 0 < x) /\ 0 < q < 1
  /\ contour ex ey data ws (Some [q]) None PadNone = Ok (cs, h, [v]) /\ q * grid_weight ex ey w < denser ex ey w v.
Proof.
  destruct u_incr as [I1 I2]. assert (HW : 0 < grid_weight ux uy uw) by (rewrite u_total; lra).
  destruct (contour_one ux uy udata [10; 1; 1] uw (71 / 100) PadNone 0 (9 / 12) u_weights) as (cs & h & E); try assumption; try (cbn; lia); [|exact pads_none| |].
  - intros x [<-|[<-|[<-|[]]]]; lra.
  - intros _. exact u_level.
  - exists ux, uy, udata, [10; 1; 1], uw, (71 / 100), cs, h, (9 / 12). split; [exact u_weights|]. split; [exact I1|]. split; [exact I2|]. split; [intros x [<-|[<-|[<-|[]]]]; lra|].
    split; [lra|]. split; [exact E|]. rewrite u_total. unfold denser, bins_weight. cbn [length ux uy Nat.sub rsum]. rewrite !u_density by lia. decide_all. cbn [uw]. lra.
Qed.

(** Padding with the lowest value. *)
Definition px : list R := [0; 1; 2].
Definition pdata : list (R * R) := [(1 / 2, 1 / 2); (1 / 2, 3 / 2); (3 / 2, 1 / 2); (3 / 2, 3 / 2)].
Definition pw (i j : nat) : R := match i, j with 0%nat, 0%nat => 10 | 0%nat, 1%nat => 9 | 1%nat, 0%nat => 8 | _, _ => 1 end.
Lemma p_weights : bin_weights px px pdata [10; 9; 8; 1] pw.
Proof.
  intros i j Hi Hj. cbn in Hi, Hj. destruct i as [|[|i]], j as [|[|j]]; try lia; cbn [pw]; unfold pdata, px; (eapply collected_eq; [|apply Rplus_0_r]).
  - hit. miss. miss. miss. constructor.
  - miss. hit. miss. miss. constructor.
  - miss. miss. hit. miss. constructor.
  - miss. miss. miss. hit. constructor.
Qed.
Lemma p_incr : incr_list px.
Proof. apply incr3; lra. Qed.
Lemma p_total : grid_weight px px pw = 28.
Proof. unfold grid_weight, bins_weight. cbn. ring. Qed.
Lemma p_density i j : (i < 2)%nat -> (j < 2)%nat -> bin_density px px pw i j = pw i j / 28.
Proof. intros Hi Hj. unfold bin_density. rewrite p_total. unfold bin_area, px. destruct i as [|[|i]], j as [|[|j]]; try lia; cbn; field. Qed.
Lemma p_level lo : entry (hist2d_array px px pdata [10; 9; 8; 1]) lo -> (forall u, entry (hist2d_array px px pdata [10; 9; 8; 1]) u -> lo <= u) ->
  level_for (pad_nd 1 lo (hist2d_array px px pdata [10; 9; 8; 1])) (676 / 1000) (8 / 28).
Proof.
  set (a := hist2d_array px px pdata [10; 9; 8; 1]). intros Hlo Hmin. pose proof p_incr as I1. assert (HW : 0 < grid_weight px px pw) by (rewrite p_total; lra).
  assert (L1 : (2 <= length px)%nat) by (cbn; lia).
  assert (EV : forall i j, (i < 2)%nat -> (j < 2)%nat -> at_ a [i; j] = pw i j / 28).
  { intros i j Hi Hj. rewrite <- p_density by assumption. apply (value_hist px px pdata [10; 9; 8; 1] pw p_weights L1 L1 I1 I1 i j HW); assumption. }
  assert (EE : forall v, entry a v <-> exists i j, (i < 2)%nat /\ (j < 2)%nat /\ pw i j / 28 = v).
  { intros v. rewrite (entry2 a 2 2 v eq_refl). split; intros (i & j & Hi & Hj & E); exists i, j; (split; [exact Hi|split; [exact Hj|]]); rewrite <- E; [symmetry|]; apply EV; assumption. }
  assert (Sa : shp a = [2%nat; 2%nat]) by reflexivity. clearbody a.
  assert (El : lo = 1 / 28).
  { apply EE in Hlo. destruct Hlo as (i & j & Hi & Hj & <-). pose proof (Hmin (1 / 28)) as H. destruct i as [|[|i]], j as [|[|j]]; try lia; cbn [pw] in *;
    try (exfalso; assert (HE : entry a (1 / 28)) by (apply EE; exists 1%nat, 1%nat; cbn; repeat split; lia); specialize (H HE); lra); reflexivity. }
  subst lo.
  assert (ES : forall f : R -> R, asum (shp (pad_nd 1 (1 / 28) a)) (fun idx => f (at_ (pad_nd 1 (1 / 28) a) idx)) = f (10 / 28) + f (9 / 28) + f (8 / 28) + 13 * f (1 / 28)).
  { intros f. unfold pad_nd. cbn [shp at_]. rewrite Sa. clear - EV. cbn. rewrite !EV by lia. cbn [pw]. ring. }
  assert (EN : forall v, entry (pad_nd 1 (1 / 28) a) v <-> v = 10 / 28 \/ v = 9 / 28 \/ v = 8 / 28 \/ v = 1 / 28).
  { intros v. split.
    - intros (idx & Hi & Ev). unfold pad_nd in *. cbn [shp at_] in *. destruct (pad_interior 1 (shp a) idx) eqn:Ep; [|right; right; right; symmetry; exact Ev].
      destruct (pad_interior_inv 1 (shp a) idx) as (j & Hj & ->); [apply inb_length in Hi; cbn [shp] in Hi; rewrite map_length in Hi; exact Hi|exact Ep|].
      rewrite (proj2 (pad_interior_shift 1 (shp a) j Hj)) in Ev. assert (HE : entry a v) by (exists j; auto). apply EE in HE. destruct HE as (i & k & Hi' & Hk & <-).
      destruct i as [|[|i]], k as [|[|k]]; try lia; cbn [pw]; auto.
    - intros Hv. assert (HE : entry a v).
      { apply EE. destruct Hv as [->|[->|[->| ->]]]; [exists 0%nat, 0%nat|exists 0%nat, 1%nat|exists 1%nat, 0%nat|exists 1%nat, 1%nat]; (split; [lia|split; [lia|reflexivity]]). }
      destruct HE as (idx & Hi & Ev). destruct (pad_interior_shift 1 (shp a) idx Hi) as [E1 E2]. exists (shift_idx 1 idx). unfold pad_nd. cbn [shp at_]. rewrite E1, E2.
      split; [|exact Ev]. unfold shift_idx. clear - Hi. induction Hi; cbn [map]; constructor; [lia|assumption]. }
  assert (EA : forall v, above (pad_nd 1 (1 / 28) a) v = (if Rltb v (10 / 28) then 10 / 28 else 0) + (if Rltb v (9 / 28) then 9 / 28 else 0)
    + (if Rltb v (8 / 28) then 8 / 28 else 0) + 13 * (if Rltb v (1 / 28) then 1 / 28 else 0)).
  { intros v. apply (ES (fun x => if Rltb v x then x else 0)). }
  assert (ET : total_of (pad_nd 1 (1 / 28) a) = 40 / 28). { transitivity (10 / 28 + 9 / 28 + 8 / 28 + 13 * (1 / 28)); [apply (ES (fun x => x))|field]. }
  split; [apply EN; auto|]. rewrite ET. split.
  - right. rewrite EA. decide_all. lra.
  - intros u Hu Hlt. apply EN in Hu. assert (u = 1 / 28) by lra. subst u. rewrite EA. decide_all. lra.
Qed.
Lemma pad_refuted : exists ex ey data ws w A q cs h v, bin_weights ex ey data ws w /\ incr_list ex /\ incr_list ey /\ equal_areas ex ey A /\ (forall x, In x ws -> 0 < x) /\ 0 < q < 1
  /\ contour ex ey data ws (Some [q]) None PadTrue = Ok (cs, h, [v]) /\ q * grid_weight ex ey w < denser ex ey w v.
Proof.
  pose proof p_incr as I1. assert (HW : 0 < grid_weight px px pw) by (rewrite p_total; lra).
  destruct (contour_one px px pdata [10; 9; 8; 1] pw (676 / 1000) PadTrue 1 (8 / 28) p_weights) as (cs & h & E); try assumption; try (cbn; lia); [|exact pads_true| |].
  - intros x [<-|[<-|[<-|[<-|[]]]]]; lra.
  - intros lo _. apply p_level.
  - exists px, px, pdata, [10; 9; 8; 1], pw, 1, (676 / 1000), cs, h, (8 / 28). split; [exact p_weights|]. split; [exact I1|]. split; [exact I1|]. split.
    { intros i j Hi Hj. cbn in Hi, Hj. unfold bin_area, px. destruct i as [|[|i]], j as [|[|j]]; try lia; cbn; ring. }
    split; [intros x [<-|[<-|[<-|[<-|[]]]]]; lra|].
    split; [lra|]. split; [exact E|]. rewrite p_total. unfold denser, bins_weight. cbn [length px Nat.sub rsum]. rewrite !p_density by lia. cbn [pw]. decide_all. lra.
Qed.
Lemma contour_drawn : forall ex ey data ws w, bin_weights ex ey data ws w -> (2 <= length ex)%nat -> (2 <= length ey)%nat -> incr_list ex -> incr_list ey ->
  forall quantiles pad p, (forall v, In v ws -> 0 <= v) -> 0 < grid_weight ex ey w -> pads_by pad p ->
  exists xs ys h levels ls, contour ex ey data ws quantiles None pad = Ok ([xs; ys], h, levels) /\ Forall2 (level_for h) (fst (default_quantiles quantiles None)) ls
  /\ Permutation ls levels /\ nondecr_list levels /\ shp h = [(length ex - 1 + 2 * p)%nat; (length ey - 1 + 2 * p)%nat]
  /\ (forall i j, (i < length ex - 1)%nat -> (j < length ey - 1)%nat -> at_ h [i + p; j + p]%nat = bin_density ex ey w i j
       /\ at_ xs [i + p; j + p]%nat = (nth i ex 0 + nth (S i) ex 0) / 2 /\ at_ ys [i + p; j + p]%nat = (nth j ey 0 + nth (S j) ey 0) / 2).
Proof.
  intros ex ey data ws w HB L1 L2 I1 I2 quantiles pad p Hw HW HP.
  destruct (contour_run ex ey data ws w HB L1 L2 I1 I2 quantiles pad p Hw HW HP) as (xs & ys & h & levels & ls & A & B & C & D & E & F & _).
  exists xs, ys, h, levels, ls. auto 10.
Qed.

(** Theorems about Sample_Outliers, scalars attached to samples, and unusual masses. *)
From Coq Require Import ZArith Permutation.
From Verif Require Import Base ModelLinAlg ModelKernels ModelKDE ModelInterp ModelResample ModelUtils ModelNd ModelSample
  SpecUtils SpecNd SpecSample ProofInterp ProofUtils ProofUtils2 ProofUtils4 ProofNested ProofNd ProofNd2 ProofNd3 ProofGrid ProofGrid2 ProofSample ProofSample2 ProofSample3 ProofSample4 ProofSample5 ProofSample6.
Open Scope R_scope.
Notation length := List.length.

(* ------------------------------------------------------------ rounding *)
Lemma rabs_le_inv x a : Rabs x <= a -> - a <= x <= a.
Proof. unfold Rabs. destruct (Rcase_abs x); lra. Qed.
Lemma int_part_bounds x : IZR (Int_part x) <= x < IZR (Int_part x) + 1.
Proof. destruct (base_Int_part x). lra. Qed.
Lemma around_spec x : Rabs (IZR (around x) - x) <= 1 / 2.
Proof.
  unfold around. cbv zeta. assert (H := int_part_bounds x). set (f := Int_part x) in *.
  destruct (Rltb_spec (x - IZR f) (1 / 2)); [apply Rabs_le; lra|]. destruct (Rltb_spec (1 / 2) (x - IZR f)); [rewrite plus_IZR; apply Rabs_le; lra|].
  destruct (Z.even f); [apply Rabs_le; lra|rewrite plus_IZR; apply Rabs_le; lra].
Qed.
Lemma around_nonneg x : 0 <= x -> (0 <= around x)%Z.
Proof. intros H. assert (A := around_spec x). apply rabs_le_inv in A. apply le_IZR. destruct (Z.le_gt_cases 0 (around x)) as [L|L]; [apply IZR_le, L|]. assert (IZR (around x) <= -1) by (apply IZR_le; lia). lra. Qed.
Lemma around_pos x : (0 < around x)%Z -> 1 / 2 <= x.
Proof. intros H. assert (A := around_spec x). apply rabs_le_inv in A. assert (1 <= IZR (around x)) by (apply IZR_le; lia). lra. Qed.

(* ------------------------------------------------------------ heavy and light bins *)
Lemma all_idx_unravel sh : all_idx sh = map (unravel sh) (seq 0 (size_of_shape sh)).
Proof.
  apply (nth_ext _ _ [] (unravel sh 0)); [rewrite all_idx_length, map_length, seq_length; reflexivity|]. intros k Hk. rewrite all_idx_length in Hk.
  rewrite (map_nth (unravel sh)), seq_nth by exact Hk. cbn [Nat.add]. destruct (unravel_inb sh k Hk) as [I E]. rewrite <- E at 1. apply all_idx_nth, I.
Qed.
Lemma filter_map_comm {A B} (f : A -> B) p l : filter p (map f l) = map f (filter (fun x => p (f x)) l).
Proof. induction l as [|a l IH]; [reflexivity|]. cbn. destruct (p (f a)); cbn; rewrite IH; reflexivity. Qed.
Lemma filter_ext_in' {A} (p q : A -> bool) l : (forall x, In x l -> p x = q x) -> filter p l = filter q l.
Proof. induction l as [|a l IH]; intros H; [reflexivity|]. cbn. rewrite (H a (or_introl eq_refl)), IH by (intros x Hx; apply H; right; exact Hx). reflexivity. Qed.
Lemma heavy_flat t m : 0 <= t ->
  heavy_bins t m = map (unravel (shp m)) (filter (fun f => Rltb 0 (vget (flatten_nd (ins_of t m)) f)) (seq 0 (length (flatten_nd (ins_of t m))))).
Proof.
  intros Ht. unfold heavy_bins. rewrite all_idx_unravel, filter_map_comm, flatten_length. cbn [ins_of map_nd shp]. f_equal. apply filter_ext_in'. intros f Hf. apply in_seq in Hf.
  rewrite flat_unravel by (cbn [ins_of map_nd shp]; lia). cbn [ins_of map_nd at_ shp].
  destruct (Rlt_dec t (at_ m (unravel (shp m) f))) as [L|L].
  - replace (Rltb t (at_ m (unravel (shp m) f))) with true by (symmetry; apply Rltb_true; exact L). symmetry. apply Rltb_true. lra.
  - replace (Rltb t (at_ m (unravel (shp m) f))) with false by (symmetry; apply Rltb_false; lra). symmetry. apply Rltb_false. lra.
Qed.
Lemma light_outs t m : asum (shp (outs_of t m)) (at_ (outs_of t m)) = light_mass t m.
Proof. unfold light_mass. cbn [outs_of map_nd shp at_]. apply asum_ext. intros idx _. destruct (Rltb_spec t (at_ m idx)); destruct (Rlt_dec t (at_ m idx)); try reflexivity; lra. Qed.
Lemma heavy_light t m : lsum (map (at_ m) (heavy_bins t m)) + light_mass t m = total m.
Proof.
  unfold heavy_bins, light_mass, total. rewrite !asum_list. unfold sumf. induction (all_idx (shp m)) as [|i l IH]; [cbn; lra|]. cbn [filter map]. destruct (Rlt_dec t (at_ m i)); cbn [map lsum fold_right] in *; rewrite <- ?IH; unfold lsum in *; cbn; lra.
Qed.
Lemma heavy_in t m idx : In idx (heavy_bins t m) <-> inb (shp m) idx /\ t < at_ m idx.
Proof. unfold heavy_bins. rewrite filter_In, inb_all_idx. destruct (Rlt_dec t (at_ m idx)); split; intros [H1 H2]; split; auto; try discriminate; contradiction. Qed.
Lemma nonneg_outs t m : nonneg_nd m -> nonneg_nd (outs_of t m).
Proof. intros H idx Hi. cbn [outs_of map_nd shp at_] in *. destruct (Rltb t (at_ m idx)); [lra|apply H, Hi]. Qed.

(* ------------------------------------------------------------ C56 *)
Lemma outlier_samples ord ea edges dens mass m t pin pout interp rand n :
  is_argsort ord -> grid_case ea edges dens mass None None m -> 0 <= t ->
  (match pout with Some k => Z.of_nat k | None => around (light_mass t m) end = Z.of_nat n) -> ((0 < n)%nat -> 0 < light_mass t m) -> unit_draws (length edges) n rand ->
  let heavy := heavy_bins t m in let h := length heavy in
  exists G vals w, Sample_Outliers ord ea dens t mass None None = Ok G
  /\ so_sample G t pin pout interp RsAbsent rand = Ok (Z.of_nat (h + n), vals, w) /\ so_sample G t pin pout interp (RsBool false) rand = Ok (Z.of_nat (h + n), vals, w)
  /\ shp vals = [length edges; (h + n)%nat]
  /\ w = (match pin with Some p => map (fun j => INR (p j)) (seq 0 h) | None => map (at_ m) heavy end) ++ repeat 1 n
  /\ (forall j d, (j < h)%nat -> (d < length edges)%nat -> column vals j d = at_ (centroids edges dens d) (nth j heavy []))
  /\ (forall j, (j < n)%nat -> exists idx, inb (bin_shape edges) idx /\ 0 < at_ m idx <= t /\ in_bin edges idx (column vals (h + j))).
Proof.
  intros Ho Hcase Ht Hn Hpos Hr heavy h. assert (Hc := Hcase). destruct Hc as (_ & Hg & Hs & _ & Hbm & Hm & _). assert (Sm := mass_shape _ _ _ _ Hg Hs Hbm).
  destruct (grid_built ord (outs_of t) ea edges dens mass None None m Hcase ltac:(intros; reflexivity)) as (G & E & E1 & E2 & E3 & E4 & E5 & _ & E7).
  exists G.
  set (inn := filter (fun f => Rltb 0 (vget (flatten_nd (ins_of t m)) f)) (seq 0 (length (flatten_nd (ins_of t m))))).
  assert (Eh : heavy = map (unravel (bin_shape edges)) inn) by (unfold heavy; rewrite heavy_flat by exact Ht; rewrite Sm; reflexivity).
  assert (Hinn : forall f, In f inn -> (f < size_of_shape (bin_shape edges))%nat) by (intros f Hf; apply filter_In in Hf; destruct Hf as [Hf _]; apply in_seq in Hf; rewrite flatten_length in Hf; cbn [ins_of map_nd shp] in Hf; rewrite Sm in Hf; lia).
  assert (Lh : length inn = h) by (unfold h; rewrite Eh, map_length; reflexivity).
  assert (B1 : mapM (unravel_index (bin_shape edges)) inn = Ok heavy).
  { rewrite (mapM_got []) by (intros f Hf; exists (unravel (bin_shape edges) f); unfold unravel_index; rewrite (proj2 (Nat.ltb_lt _ _) (Hinn f Hf)); reflexivity).
    f_equal. rewrite Eh. apply map_ext_in. intros f Hf. unfold unravel_index. rewrite (proj2 (Nat.ltb_lt _ _) (Hinn f Hf)). reflexivity. }
  assert (B2 : mapM (nd_get (ins_of t m)) heavy = Ok (map (at_ m) heavy)).
  { assert (V : forall idx, In idx heavy -> nd_get (ins_of t m) idx = Ok (at_ m idx)).
    { intros idx Hi. apply heavy_in in Hi. destruct Hi as [Hi Hl]. unfold nd_get. cbn [ins_of map_nd shp at_]. rewrite (proj2 (inbb_spec _ _) Hi). rewrite (proj2 (Rltb_true _ _) Hl). reflexivity. }
    rewrite (mapM_got 0) by (intros idx Hi; exists (at_ m idx); apply V, Hi). f_equal. apply map_ext_in. intros idx Hi. rewrite (V idx Hi). reflexivity. }
  set (com := fun dj => at_ (centroids edges dens (nth 0 dj 0%nat)) (nth (nth 1 dj 0%nat) heavy [])).
  set (w0 := match pin with Some p => map (fun j => INR (p j)) (seq 0 h) | None => map (at_ m) heavy end).
  destruct n as [|n'].
  - exists (mkA [length edges; h] com), w0. split; [exact E|].
    assert (R : forall rs, (rs = RsAbsent \/ rs = RsBool false) -> so_sample G t pin pout interp rs rand = Ok (Z.of_nat (h + 0), mkA [length edges; h] com, w0)).
    { intros rs Hrs. unfold so_sample. rewrite E3, E1, E2, E4, light_outs, Hn. cbv zeta. fold inn. rewrite Lh, B1. cbn [bind]. rewrite B2. cbn [bind].
      change (Z.ltb 0 (Z.of_nat 0)) with false. cbv iota. replace (Z.of_nat h + Z.of_nat 0)%Z with (Z.of_nat (h + 0)) by lia. destruct Hrs as [->| ->]; reflexivity. }
    split; [apply R; left; reflexivity|]. split; [apply R; right; reflexivity|]. split; [cbn [shp]; rewrite Nat.add_0_r; reflexivity|]. split; [cbn [repeat]; rewrite app_nil_r; reflexivity|].
    split; [intros j d Hj Hd; reflexivity|intros j Hj; lia].
  - set (n := S n') in *. specialize (Hpos ltac:(lia)).
    assert (HT : 0 < total (outs_of t m)) by (unfold total; rewrite light_outs; exact Hpos).
    assert (Ln : length (flatten_nd (outs_of t m)) = size_of_shape (bin_shape edges)) by (rewrite flatten_length; cbn [outs_of map_nd shp]; rewrite Sm; reflexivity).
    destruct (sample_run G edges (Some (IZR (Z.of_nat n))) interp (Some false) rand n E1 Hg ltac:(rewrite E2; exact Hs) E4 ltac:(rewrite E5; intros ? C; discriminate C)) as (vals & sc & bin & R1 & R2 & R3 & _).
    { apply trunc_wants. rewrite <- INR_IZR_INZ. lra. }
    { intros j Hj. destruct (sorted_draw _ _ _ j Hr Hj) as (k & _ & -> & Hu). destruct (built_bin ord _ _ _ Ho (nonneg_outs t m Hm) HT E7 (rand 0%nat k) ltac:(lra)) as (b & Hb & Eb & _). exists b. split; [lia|exact Eb]. }
    set (V := mkA [length edges; (h + n)%nat] (fun dj => if Nat.ltb (nth 1 dj 0%nat) h then com dj else at_ vals [nth 0 dj 0%nat; (nth 1 dj 0 - h)%nat])).
    exists V, (w0 ++ repeat 1 n). split; [exact E|].
    assert (R : forall rs, (rs = RsAbsent \/ rs = RsBool false) -> so_sample G t pin pout interp rs rand = Ok (Z.of_nat (h + n), V, w0 ++ repeat 1 n)).
    { intros rs Hrs. unfold so_sample. rewrite E3, E1, E2, E4, light_outs, Hn. cbv zeta. fold inn. rewrite Lh, B1. cbn [bind]. rewrite B2. cbn [bind].
      replace (Z.ltb 0 (Z.of_nat n)) with true by (symmetry; apply Z.ltb_lt; lia). cbv iota. rewrite R1. cbn [bind fst]. replace (Z.of_nat h + Z.of_nat n)%Z with (Z.of_nat (h + n)) by lia. rewrite Nat2Z.id. destruct Hrs as [->| ->]; reflexivity. }
    split; [apply R; left; reflexivity|]. split; [apply R; right; reflexivity|]. split; [reflexivity|]. split; [reflexivity|]. split.
    + intros j d Hj Hd. unfold column, V. cbn [at_ nth]. rewrite (proj2 (Nat.ltb_lt j h) Hj). reflexivity.
    + intros j Hj. destruct (R3 j Hj) as (Hi & Eb & Hv). exists (bin j). split; [exact Hi|].
      destruct (sorted_draw _ _ _ j Hr Hj) as (k & _ & Eu & Hu). rewrite Eu in Eb.
      destruct (built_bin ord _ _ _ Ho (nonneg_outs t m Hm) HT E7 (rand 0%nat k) ltac:(lra)) as (b & Hb & Eb' & Hp). rewrite Eb in Eb'. injection Eb' as <-.
      assert (Q : vget (flatten_nd (outs_of t m)) (ravel (bin_shape edges) (bin j)) = at_ (outs_of t m) (bin j)).
      { replace (bin_shape edges) with (shp (outs_of t m)) by (cbn [outs_of map_nd shp]; exact Sm). apply flatten_nth. cbn [outs_of map_nd shp]. rewrite Sm. exact Hi. }
      rewrite Q in Hp. cbn [outs_of map_nd at_] in Hp. split.
      * destruct (Rltb_spec t (at_ m (bin j))); lra.
      * intros d Hd. unfold column, V. cbn [at_ nth]. replace (Nat.ltb (h + j) h) with false by (symmetry; apply Nat.ltb_ge; lia). replace (h + j - h)%nat with j by lia.
        change (at_ vals [d; j]) with (column vals j d). rewrite (Hv d Hd). cbv zeta. destruct (bin_edge _ _ d Hg Hi Hd) as [_ L]. apply in_bin_affine; [exact L|].
        specialize (Hr (S d) j ltac:(lia) Hj). destruct interp; [apply pos_unit; lra|lra].
Qed.

Lemma lsum_app l1 l2 : lsum (l1 ++ l2) = lsum l1 + lsum l2.
Proof. unfold lsum. induction l1 as [|a l IH]; cbn; [lra|]. rewrite IH. lra. Qed.
Lemma lsum_ones n : lsum (repeat 1 n) = INR n.
Proof. induction n as [|n IH]; [reflexivity|]. rewrite S_INR. cbn [repeat]. unfold lsum in *. cbn [fold_right]. rewrite IH. lra. Qed.

(** C56: without Poisson draws. *)
Theorem outliers_conserve ord ea edges dens mass m t interp rand :
  is_argsort ord -> grid_case ea edges dens mass None None m -> 0 <= t -> (forall n, unit_draws (length edges) n rand) ->
  let heavy := heavy_bins t m in let h := length heavy in
  exists G vals w n, Sample_Outliers ord ea dens t mass None None = Ok G
  /\ so_sample G t None None interp RsAbsent rand = Ok (Z.of_nat (h + n), vals, w) /\ shp vals = [length edges; (h + n)%nat]
  /\ w = map (at_ m) heavy ++ repeat 1 n
  /\ Rabs (INR n - light_mass t m) <= 1 / 2 /\ Rabs (lsum w - total m) <= 1 / 2
  /\ (forall j d, (j < h)%nat -> (d < length edges)%nat -> let idx := nth j heavy [] in
        nth (nth d idx 0%nat) (nth d edges []) 0 < column vals j d < nth (S (nth d idx 0%nat)) (nth d edges []) 0
        /\ let box := bin_box edges idx in let c := fun bits => at_ dens (corner idx bits) in
           exists mb moment, is_box_integral box (multilinear box c) mb /\ is_box_integral box (fun x => nth d x 0 * multilinear box c x) moment
           /\ (0 < mb -> column vals j d = moment / mb))
  /\ (forall j, (j < n)%nat -> exists idx, inb (bin_shape edges) idx /\ 0 < at_ m idx <= t /\ in_bin edges idx (column vals (h + j))).
Proof.
  intros Ho Hcase Ht Hr heavy h. assert (Hc := Hcase). destruct Hc as (_ & Hg & Hs & Hd & Hbm & Hm & _). assert (Sm := mass_shape _ _ _ _ Hg Hs Hbm).
  assert (L0 : 0 <= light_mass t m).
  { unfold light_mass. rewrite asum_list. assert (A : forall x, In x (all_idx (shp m)) -> 0 <= (if Rlt_dec t (at_ m x) then 0 else at_ m x)) by (intros x Hx; apply inb_all_idx in Hx; destruct (Rlt_dec t (at_ m x)); [lra|apply Hm, Hx]).
    exact (sumf_nonneg _ _ A). }
  set (n := Z.to_nat (around (light_mass t m))). assert (Zn : around (light_mass t m) = Z.of_nat n) by (unfold n; rewrite Z2Nat.id; [reflexivity|apply around_nonneg, L0]).
  destruct (outlier_samples ord ea edges dens mass m t None None interp rand n Ho Hcase Ht Zn) as (G & vals & w & E & R1 & _ & R2 & R3 & R4 & R5).
  { intros P. assert (1 / 2 <= light_mass t m) by (apply around_pos; lia). lra. }
  { apply Hr. }
  fold heavy in R1, R2, R3, R4, R5. fold h in R1, R2, R3, R4, R5.
  assert (A : Rabs (INR n - light_mass t m) <= 1 / 2) by (rewrite INR_IZR_INZ, <- Zn; apply around_spec).
  exists G, vals, w, n. split; [exact E|]. split; [exact R1|]. split; [exact R2|]. split; [exact R3|]. split; [exact A|]. split.
  { rewrite R3, lsum_app, lsum_ones. assert (Q := heavy_light t m). fold heavy in Q. replace (lsum (map (at_ m) heavy) + INR n - total m) with (INR n - light_mass t m) by lra. exact A. }
  split; [|exact R5]. intros j d Hj Hdd idx. assert (Hi : inb (bin_shape edges) idx) by (rewrite <- Sm; apply (heavy_in t m); apply nth_In; exact Hj).
  rewrite (R4 j d Hj Hdd). fold idx. assert (Hinc : forall x, In x edges -> incr_list x) by (intros x Hx; apply Hg, Hx). split.
  - apply centroid_inside; assumption.
  - apply (centroid_is_center_of_mass edges dens d idx); assumption.
Qed.
(** With Poisson draws: the interior weights are the draws, and as many outliers as drawn. *)
Theorem outliers_poisson ord ea edges dens mass m t p k interp rand :
  is_argsort ord -> grid_case ea edges dens mass None None m -> 0 <= t -> ((0 < k)%nat -> 0 < light_mass t m) -> unit_draws (length edges) k rand ->
  let heavy := heavy_bins t m in let h := length heavy in
  exists G vals w, Sample_Outliers ord ea dens t mass None None = Ok G
  /\ so_sample G t (Some p) (Some k) interp RsAbsent rand = Ok (Z.of_nat (h + k), vals, w) /\ shp vals = [length edges; (h + k)%nat]
  /\ w = map (fun j => INR (p j)) (seq 0 h) ++ repeat 1 k
  /\ (forall j, (j < k)%nat -> exists idx, inb (bin_shape edges) idx /\ 0 < at_ m idx <= t /\ in_bin edges idx (column vals (h + j))).
Proof.
  intros Ho Hcase Ht Hp Hr heavy h. destruct (outlier_samples ord ea edges dens mass m t (Some p) (Some k) interp rand k Ho Hcase Ht eq_refl Hp Hr) as (G & vals & w & E & R1 & _ & R2 & R3 & _ & R5).
  exists G, vals, w. repeat (split; [assumption|]). exact R5.
Qed.
Theorem outliers_reject ord ea edges dens mass m t pin pout interp rand :
  grid_case ea edges dens mass None None m ->
  (forall r rs, sample_outliers ord ea dens t (Some r) mass pin pout interp rs rand = Err ValueError)
  /\ (forall rs, rs = RsNone \/ rs = RsBool true -> sample_outliers ord ea dens t None mass pin pout interp rs rand = Err ValueError).
Proof.
  intros Hcase. destruct (grid_built ord (outs_of t) ea edges dens mass None None m Hcase ltac:(intros; reflexivity)) as (G & E & _).
  unfold sample_outliers, Sample_Outliers. rewrite E. cbn [bind]. split; [reflexivity|]. intros rs [->| ->]; reflexivity.
Qed.

(* ------------------------------------------------------------ C76: no mass at all *)
Theorem no_mass_fails ord ea edges dens mass m nsamp interp rs rand n :
  is_argsort ord -> grid_case ea edges dens mass None None m -> (forall idx, inb (bin_shape edges) idx -> at_ m idx = 0) -> wants nsamp m n ->
  (exists j, (j < n)%nat /\ 0 < rand 0%nat j) ->
  exists G, Sample_Grid ord ea dens mass None None = Ok G /\ sg_sample G nsamp interp rs rand = Err IndexError.
Proof.
  intros Ho Hcase Hz Hn (j & Hj & Hu). assert (Hc := Hcase). destruct Hc as (_ & Hg & Hs & _ & Hbm & Hm & _). assert (Sm := mass_shape _ _ _ _ Hg Hs Hbm).
  destruct (grid_built ord (fun a => a) ea edges dens mass None None m Hcase ltac:(intros; reflexivity)) as (G & E & E1 & E2 & E3 & E4 & E5 & _ & E7).
  exists G. split; [exact E|]. destruct (cum_values ord m _ _ Ho E7) as (Hne & _ & Hp & Li & Lc & Hv).
  assert (P0 : forall k, (k < length (g_csum G))%nat -> vget (g_csum G) k = 0).
  { intros k Hk. rewrite Lc in Hk. rewrite Hv by lia. enough (psum (flatten_nd m) (g_idx G) k = 0) as -> by (unfold Rdiv; ring). unfold psum. rewrite (rsum_ext _ _ (fun _ => 0)); [apply rsum_zero|]. intros i Hi.
    assert (Hb : (nth i (g_idx G) 0 < length (flatten_nd m))%nat) by (assert (In (nth i (g_idx G) 0%nat) (seq 0 (length (flatten_nd m)))) by (eapply Permutation_in; [exact Hp|apply nth_In; lia]); apply in_seq in H; lia).
    rewrite flatten_length in Hb. rewrite flat_unravel by exact Hb. apply Hz. rewrite <- Sm. apply unravel_inb, Hb. }
  assert (SS : forall u, 0 < u -> searchsorted (g_csum G) u = length (g_csum G)).
  { intros u Pu. unfold searchsorted. assert (X : forall f i, (i + f = length (g_csum G))%nat -> ssleft (vget (g_csum G)) u f i = length (g_csum G)).
    { induction f as [|f IH]; intros i Hi; cbn [ssleft]; [lia|]. rewrite P0 by lia. rewrite (proj2 (Rleb_false u 0)) by lra. apply IH. lia. }
    apply X. lia. }
  assert (RB : forall u, 0 < u -> random_bin (g_idx G) (g_csum G) u = Err IndexError).
  { intros u Pu. unfold random_bin. rewrite SS by exact Pu. rewrite Lc. rewrite (proj2 (nth_error_None (g_idx G) (length (flatten_nd m)))) by lia. reflexivity. }
  assert (RB0 : forall u, random_bin (g_idx G) (g_csum G) u = Err IndexError \/ exists b, random_bin (g_idx G) (g_csum G) u = Ok b).
  { intros u. unfold random_bin. destruct (searchsorted (g_csum G) u) as [|k]; [destruct (g_idx G); [left; reflexivity|right; eexists; reflexivity]|]. destruct (nth_error (g_idx G) k); [right; eexists; reflexivity|left; reflexivity]. }
  unfold sg_sample. cbv zeta. rewrite E3. change (asum (shp m) (at_ m)) with (total m). rewrite (trunc_wants _ n Hn). replace (Z.ltb (Z.of_nat n) 0) with false by (symmetry; apply Z.ltb_ge; lia). rewrite Nat2Z.id.
  assert (MM : mapM (random_bin (g_idx G) (g_csum G)) (np_sort (map (rand 0%nat) (seq 0 n))) = Err IndexError).
  { assert (Hin : In (rand 0%nat j) (np_sort (map (rand 0%nat) (seq 0 n)))) by (eapply Permutation_in; [apply np_sort_spec|apply in_map, in_seq; lia]).
    revert Hin. generalize (np_sort (map (rand 0%nat) (seq 0 n))). intros l. induction l as [|a l IH]; intros Hin; [destruct Hin|]. cbn [mapM]. destruct (RB0 a) as [->|[b Eb]]; [reflexivity|]. rewrite Eb. cbn [bind].
    destruct Hin as [->|Hin]; [rewrite RB in Eb by exact Hu; discriminate Eb|]. rewrite IH by exact Hin. reflexivity. }
  rewrite MM. reflexivity.
Qed.

(* ------------------------------------------------------------ C77: scalars *)
Lemma sum_pos {A} (f : A -> R) l : l <> [] -> (forall x, In x l -> 0 < f x) -> 0 < sumf f l.
Proof. intros Hn H. destruct l as [|a l]; [congruence|]. unfold sumf. cbn [map lsum fold_right]. assert (0 < f a) by (apply H; left; reflexivity). assert (0 <= sumf f l) by (apply sumf_nonneg; intros x Hx; left; apply H; right; exact Hx). unfold sumf, lsum in *. lra. Qed.
Lemma vol_volume edges : forall idx, vol edges idx = bin_volume edges idx.
Proof. unfold bin_volume. induction edges as [|x es IH]; intros [|i idx]; try reflexivity. cbn [vol bin_box map product fold_right fst snd]. rewrite IH. reflexivity. Qed.
Lemma avg_corner_mean edges a idx : length idx = length edges -> avg_corners edges (at_ a) idx = bin_volume edges idx * corner_mean a idx.
Proof.
  intros L. unfold avg_corners, corner_mean. rewrite L, vol_volume, pow2_INR. rewrite (asum_ext _ (fun bits => at_ a (corner idx bits)) (fun bits => at_ a (add_idx idx bits))).
  - field. apply pow_nonzero. lra.
  - intros bits Hb. apply inb_repeat2_length in Hb. rewrite corner_add by lia. reflexivity.
Qed.
Lemma bin_len edges idx : inb (bin_shape edges) idx -> length idx = length edges.
Proof. intros H. apply inb_length in H. unfold bin_shape in H. rewrite map_length in H. exact H. Qed.

Theorem scalar_values ord ea edges dens mass sd m nsamp interp rs rand n :
  is_argsort ord -> grid_case ea edges dens mass (Some sd) None m -> 0 < total m -> wants nsamp m n -> unit_draws (length edges) n rand -> rs <> Some false ->
  exists G vals l, Sample_Grid ord ea dens mass (Some sd) None = Ok G /\ sg_sample G nsamp interp rs rand = Ok (vals, Some l) /\ length l = n
  /\ forall j, (j < n)%nat -> exists idx, inb (bin_shape edges) idx /\ in_bin edges idx (column vals j) /\ 0 < at_ m idx
     /\ nth j l 0 = bin_volume edges idx * corner_mean sd idx
                    + (if interp then rsum (length edges) (fun d => (side_mean sd d 1 idx - side_mean sd d 0 idx) * (rand (S d) j - 1 / 2)) else 0).
Proof.
  intros Ho Hcase HT Hn Hr Hrs. assert (Hc := Hcase). destruct Hc as (_ & Hg & Hs & _ & Hbm & Hm & Hsd & _). assert (Sm := mass_shape _ _ _ _ Hg Hs Hbm). specialize (Hsd sd eq_refl). rewrite Hs in Hsd.
  destruct (sampler_spec ord ea edges dens mass (Some sd) None m Ho Hcase HT) as (G & E & E1 & E2 & E3 & E4 & E5 & E6 & E7 & HR).
  destruct (HR nsamp interp rs rand n Hn Hr) as (vals & sc & bin & R1 & R2 & R3 & R4 & _). destruct (E6 sd eq_refl) as (sm & Em & Ssm & Hsm). destruct (R4 sd sm eq_refl Em Hrs) as (l & -> & Ll & Hl).
  exists G, vals, l. split; [exact E|]. split; [exact R1|]. split; [exact Ll|]. intros j Hj. destruct (R3 j Hj) as (Hi & Eb & Hv). exists (bin j). split; [exact Hi|]. split; [|split].
  - intros d Hd. rewrite (Hv d Hd). cbv zeta. destruct (bin_edge _ _ d Hg Hi Hd) as [_ L]. apply in_bin_affine; [exact L|]. specialize (Hr (S d) j ltac:(lia) Hj). destruct interp; [apply pos_unit; lra|lra].
  - destruct (sorted_draw _ _ _ j Hr Hj) as (k & _ & Eu & Hu). rewrite Eu in Eb. destruct (built_bin ord _ _ _ Ho Hm HT E7 (rand 0%nat k) ltac:(lra)) as (b & Hb & Eb' & Hp). rewrite Eb in Eb'. injection Eb' as <-.
    rewrite <- Sm in Hp. rewrite flatten_nth in Hp by (rewrite Sm; exact Hi). exact Hp.
  - rewrite (Hl j Hj). f_equal.
    + destruct Hsm as [C|[_ Et]]; [discriminate C|]. destruct (mass_run sd edges Hsd (good_ne _ Hg)) as (sm' & Et' & _ & Vm). rewrite Et in Et'. injection Et' as <-. rewrite (Vm (bin j) Hi). apply avg_corner_mean, bin_len, Hi.
    + destruct interp; [|reflexivity]. apply rsum_ext. intros d Hd. f_equal. unfold scalar_slope. rewrite !side_mean_corner by (rewrite Hsd, lens_length; apply bin_len, Hi). unfold Rdiv. ring.
Qed.
Lemma asum_const sh c : asum sh (fun _ => c) = INR (size_of_shape sh) * c.
Proof. induction sh as [|n sh IH]; [cbn; lra|]. cbn [asum]. rewrite (rsum_ext _ _ (fun _ => INR (size_of_shape sh) * c)) by (intros; apply IH). rewrite rsum_const. change (size_of_shape (n :: sh)) with (n * size_of_shape sh)%nat. rewrite mult_INR. ring. Qed.
Lemma size_twos n : size_of_shape (repeat 2%nat n) = (2 ^ n)%nat.
Proof. induction n as [|n IH]; [reflexivity|]. cbn [repeat Nat.pow]. change (size_of_shape (2%nat :: repeat 2%nat n)) with (2 * size_of_shape (repeat 2%nat n))%nat. rewrite IH. reflexivity. Qed.
Lemma corner_mean_const a c idx : (forall bits, inb (repeat 2%nat (length idx)) bits -> at_ a (corner idx bits) = c) -> corner_mean a idx = c.
Proof. intros H. unfold corner_mean. rewrite (asum_ext _ _ (fun _ => c)) by exact H. rewrite asum_const, size_twos, pow2_INR. field. apply pow_nonzero. lra. Qed.
Lemma corner_inb edges idx bits : good_edges edges -> inb (bin_shape edges) idx -> inb (repeat 2%nat (length idx)) bits -> inb (lens edges) (corner idx bits).
Proof.
  intros Hg Hi Hb. assert (L := bin_len _ _ Hi). rewrite corner_add by (apply inb_repeat2_length in Hb; lia). apply inb_add_bits; [|rewrite lens_length, <- L; exact Hb]. rewrite <- masses_lens. exact Hi.
Qed.
Lemma side_inb D d s : forall bits, inb (set_nth d 1%nat (repeat 2%nat D)) bits -> (s < 2)%nat -> inb (repeat 2%nat D) (set_nth d s bits).
Proof.
  revert d. induction D as [|D IH]; intros d bits H Hs; cbn [repeat set_nth] in *.
  - destruct d; cbn in *; inversion H; subst; cbn; try constructor; try (destruct d; constructor).
  - destruct d as [|d]; cbn [set_nth] in *; inversion H; subst; cbn [set_nth]; constructor; auto; apply IH; auto.
Qed.
Lemma side_mean_diff_const edges a c d idx : good_edges edges -> inb (bin_shape edges) idx -> (forall j, inb (lens edges) j -> at_ a j = c) -> side_mean a d 1 idx - side_mean a d 0 idx = 0.
Proof.
  intros Hg Hi H. unfold side_mean. rewrite (asum_ext _ (fun bits => at_ a (corner idx (set_nth d 1%nat bits))) (fun _ => c)).
  2:{ intros bits Hb. apply H. apply corner_inb; [exact Hg|exact Hi|]. apply side_inb; [exact Hb|lia]. }
  rewrite (asum_ext _ (fun bits => at_ a (corner idx (set_nth d 0%nat bits))) (fun _ => c)).
  2:{ intros bits Hb. apply H. apply corner_inb; [exact Hg|exact Hi|]. apply side_inb; [exact Hb|lia]. }
  ring.
Qed.
Theorem scalar_constant ord ea edges dens mass sd m c nsamp interp rs rand n :
  is_argsort ord -> grid_case ea edges dens mass (Some sd) None m -> 0 < total m -> wants nsamp m n -> unit_draws (length edges) n rand -> rs <> Some false ->
  (forall idx, inb (shp sd) idx -> at_ sd idx = c) ->
  exists G vals l, Sample_Grid ord ea dens mass (Some sd) None = Ok G /\ sg_sample G nsamp interp rs rand = Ok (vals, Some l) /\ length l = n
  /\ forall j, (j < n)%nat -> exists idx, inb (bin_shape edges) idx /\ in_bin edges idx (column vals j) /\ 0 < at_ m idx /\ nth j l 0 = c * bin_volume edges idx.
Proof.
  intros Ho Hcase HT Hn Hr Hrs Hk. assert (Hc := Hcase). destruct Hc as (_ & Hg & Hs & _ & _ & _ & Hsd & _). specialize (Hsd sd eq_refl). rewrite Hsd, Hs in Hk.
  destruct (scalar_values ord ea edges dens mass sd m nsamp interp rs rand n Ho Hcase HT Hn Hr Hrs) as (G & vals & l & E & R1 & Ll & H). exists G, vals, l. split; [exact E|]. split; [exact R1|]. split; [exact Ll|].
  intros j Hj. destruct (H j Hj) as (idx & Hi & Hb & Hp & Hv). exists idx. split; [exact Hi|]. split; [exact Hb|]. split; [exact Hp|]. rewrite Hv.
  rewrite (corner_mean_const sd c) by (intros bits Hbits; apply Hk, corner_inb; assumption).
  replace (if interp then _ else 0) with 0; [ring|]. destruct interp; [|reflexivity]. symmetry. rewrite (rsum_ext _ _ (fun _ => 0)); [apply rsum_zero|]. intros d _. rewrite (side_mean_diff_const edges sd c) by assumption. ring.
Qed.
(** C78 *)
Theorem proportional_weights ord ea edges dens portion m c nsamp interp rand n :
  is_argsort ord -> edges_given ea edges -> good_edges edges -> shp portion = map (@List.length R) edges -> shp dens = shp portion ->
  (forall idx, inb (shp portion) idx -> 0 < at_ portion idx /\ at_ dens idx = c * at_ portion idx) ->
  bin_masses edges portion None m -> wants nsamp m n -> unit_draws (length edges) n rand ->
  exists vals l, sample_grid_proportional ord ea dens portion nsamp interp rand = Ok (vals, Some l) /\ shp vals = [length edges; n] /\ length l = n
  /\ forall j, (j < n)%nat -> exists idx, inb (bin_shape edges) idx /\ in_bin edges idx (column vals j) /\ nth j l 0 = c * bin_volume edges idx.
Proof.
  intros Ho Hea Hg Hs Hsd Hp Hbm Hn Hr.
  set (sd := mkA (shp portion) (fun idx => if Reqb (at_ portion idx) 0 then 0 else at_ dens idx / at_ portion idx)).
  destruct (mass_run portion edges Hs (good_ne _ Hg)) as (m' & Em & Sm & Vm). unfold bin_masses in Hbm. rewrite Em in Hbm. injection Hbm as ->.
  assert (Hpos : forall idx, inb (bin_shape edges) idx -> 0 < at_ m idx).
  { intros idx Hi. rewrite (Vm idx Hi). rewrite avg_corner_mean by (apply bin_len, Hi). apply Rmult_lt_0_compat.
    - rewrite <- vol_volume. apply vol_pos; [intros x Hx; apply Hg, Hx|exact Hi].
    - unfold corner_mean. apply Rmult_lt_0_compat; [|apply Rinv_0_lt_compat, pow_lt; lra]. rewrite asum_list. apply sum_pos.
      + intros C. assert (X := all_idx_length (repeat 2%nat (length idx))). rewrite C, size_twos in X. cbn in X. symmetry in X. apply Nat.pow_nonzero in X; [exact X|lia].
      + intros bits Hb. apply inb_all_idx in Hb. apply Hp. rewrite Hs. apply corner_inb; assumption. }
  assert (Hcase : grid_case ea edges portion None (Some sd) None m).
  { split; [exact Hea|]. split; [exact Hg|]. split; [exact Hs|]. split; [intros idx Hi; left; apply Hp, Hi|]. split; [exact Em|]. split; [intros idx Hi; left; apply Hpos; rewrite Sm in Hi; exact Hi|].
    split; [intros sd' X; injection X as <-; reflexivity|intros sm X; discriminate X]. }
  assert (HT : 0 < total m).
  { unfold total. rewrite asum_list. apply sum_pos.
    - intros C. assert (X := all_idx_length (shp m)). rewrite C, Sm in X. assert (Y := size_pos _ (bin_shape_pos _ Hg)). unfold masses in X. unfold bin_shape in Y. cbn in X. lia.
    - intros idx Hi. apply inb_all_idx in Hi. rewrite Sm in Hi. apply Hpos, Hi. }
  destruct (scalar_constant ord ea edges portion None sd m c nsamp interp None rand n Ho Hcase HT Hn Hr ltac:(discriminate)) as (G & vals & l & E & R1 & Ll & H).
  { intros idx Hi. cbn [sd shp at_] in *. destruct (Hp idx Hi) as [P1 P2]. rewrite (proj2 (Reqb_false _ _)) by lra. rewrite P2. field. lra. }
  destruct (samples_in_bins ord ea edges portion None (Some sd) None m nsamp interp None rand n Ho Hcase HT Hn Hr) as (G' & vals' & sc' & E' & R1' & Sv & _). rewrite E in E'. injection E' as <-. rewrite R1 in R1'. injection R1' as <- _.
  exists vals, l. unfold sample_grid_proportional. fold sd. rewrite E. cbn [bind]. rewrite R1. split; [reflexivity|]. split; [exact Sv|]. split; [exact Ll|].
  intros j Hj. destruct (H j Hj) as (idx & Hi & Hb & _ & Hv). exists idx. split; [exact Hi|]. split; assumption.
Qed.

(* ------------------------------------------------------------ C75: one-dimensional masses for a grid with more dimensions *)
Lemma unravel_small k : forall sh f, (f < k)%nat -> sh <> [] -> (forall n, In n sh -> n = k) -> unravel sh f = repeat 0%nat (length sh - 1) ++ [f].
Proof.
  induction sh as [|a sh IH]; intros f Hf Hne Hall; [congruence|]. destruct sh as [|b sh'].
  - cbn [unravel size_of_shape fold_right length Nat.sub repeat app]. rewrite Nat.div_1_r. reflexivity.
  - set (sh := b :: sh') in *. cbn [unravel]. assert (K : (k <= size_of_shape sh)%nat).
    { assert (Hb : b = k) by (apply Hall; right; left; reflexivity). unfold sh. change (size_of_shape (b :: sh')) with (b * size_of_shape sh')%nat.
      assert (0 < size_of_shape sh')%nat by (apply size_pos; intros n Hn; rewrite (Hall n) by (right; right; exact Hn); lia). rewrite Hb. nia. }
    rewrite Nat.div_small, Nat.mod_small by lia. rewrite IH; [|exact Hf|discriminate|intros n Hn; apply Hall; right; exact Hn].
    replace (length (a :: sh) - 1)%nat with (S (length sh - 1)) by (unfold sh; cbn; lia). reflexivity.
Qed.
Lemma existsb_same k l : (forall n, In n l -> n = k) -> existsb (fun b => negb (Nat.eqb k b)) l = false.
Proof. intros H. destruct (existsb _ l) eqn:E; [|reflexivity]. apply existsb_exists in E. destruct E as [x [Hx E]]. rewrite (H x Hx), Nat.eqb_refl in E. discriminate E. Qed.
Theorem flat_mass_accepted ord edges dens k (ms : list R) nsamp interp rand n :
  is_argsort ord -> good_edges edges -> (2 <= length edges)%nat -> shp dens = map (@List.length R) edges -> (forall b, In b (bin_shape edges) -> b = k) ->
  length ms = k -> (forall x, In x ms -> 0 <= x) -> 0 < lsum ms -> wants nsamp (vec ms) n -> unit_draws (length edges) n rand ->
  exists G vals, Sample_Grid ord (EList edges) dens (Some (vec ms)) None None = Ok G /\ sg_sample G nsamp interp None rand = Ok (vals, None)
  /\ shp vals = [length edges; n]
  /\ forall j, (j < n)%nat -> exists i, (i < k)%nat /\ 0 < nth i ms 0 /\ in_bin edges (repeat 0%nat (length edges - 1) ++ [i]) (column vals j).
Proof.
  intros Ho Hg H2 Hs Hk Lm Hm HT Hn Hr.
  assert (Fl : flatten_nd (vec ms) = ms).
  { apply (nth_ext _ _ 0 0); [rewrite flatten_length; cbn; lia|]. intros i Hi. rewrite flatten_length in Hi. cbn in Hi. change (vget (flatten_nd (vec ms)) i = nth i ms 0). rewrite flat_unravel by (cbn; lia). cbn [vec shp unravel size_of_shape fold_right at_ nth]. rewrite Nat.div_1_r. reflexivity. }
  assert (K0 : (0 < k)%nat) by (destruct ms; [cbn in HT; lra|cbn in Lm; lia]).
  assert (Hc : check_grid (EList edges) dens (Some (vec ms)) = Ok edges).
  { unfold check_grid. cbn [bind fst snd]. rewrite Hs, map_length, Nat.eqb_refl. cbn [negb]. rewrite nats_eqb_refl. cbn [negb]. fold (lens edges). rewrite bins_lens.
    replace (existsb (Nat.eqb 0) (lens edges)) with false.
    2:{ symmetry. destruct (existsb _ _) eqn:E; [|reflexivity]. apply existsb_exists in E. destruct E as [x [Hx E]]. apply Nat.eqb_eq in E. assert (Q := good_len _ Hg x Hx). lia. }
    cbn [orb]. unfold shape_differs. cbn [vec shp]. rewrite Lm. cbn [length]. unfold bin_shape at 1. rewrite map_length. replace (Nat.eqb 1 (length edges)) with false by (symmetry; apply Nat.eqb_neq; lia).
    rewrite (existsb_same k) by exact Hk. reflexivity. }
  destruct (cum_ok ord (vec ms)) as [ic Ec]; [cbn; lia|].
  set (G := mkSG edges dens (vec ms) (map (fun n => (n - 1)%nat) (shp dens)) None None (fst ic) (snd ic)).
  assert (EG : Sample_Grid ord (EList edges) dens (Some (vec ms)) None None = Ok G) by (unfold Sample_Grid, make_grid; rewrite Hc; cbn [bind]; rewrite Ec; reflexivity).
  assert (Ec' : data_to_cumulative ord (vec ms) = Ok (fst ic, snd ic)) by (rewrite Ec; destruct ic; reflexivity).
  assert (Hm' : nonneg_nd (vec ms)).
  { intros idx Hi. cbn [vec shp at_] in *. apply vget_nonneg, Hm. }
  assert (HT' : 0 < total (vec ms)) by (unfold total; rewrite asum_flat, Fl; exact HT).
  assert (Lk : forall b, (b < k)%nat -> (b < size_of_shape (bin_shape edges))%nat).
  { intros b Hb. destruct edges as [|e0 es]; [cbn in H2; lia|]. cbn [bin_shape map]. change (size_of_shape (?a :: ?b)) with (a * size_of_shape b)%nat. fold (bin_shape es).
    assert (A : (length e0 - 1)%nat = k) by (apply Hk; left; reflexivity). assert (0 < size_of_shape (bin_shape es))%nat by (apply size_pos; intros x Hx; rewrite (Hk x) by (right; exact Hx); lia). cbn [size_of_shape fold_right] in *. rewrite A. fold (size_of_shape (bin_shape es)). nia. }
  destruct (sample_run G edges nsamp interp None rand n eq_refl Hg Hs ltac:(cbn [G g_bins]; rewrite Hs; apply bins_lens) ltac:(intros ? C; discriminate C)) as (vals & sc & bin & R1 & R2 & R3 & _ & R5).
  { apply trunc_wants. exact Hn. }
  { intros j Hj. destruct (sorted_draw _ _ _ j Hr Hj) as (q & _ & -> & Hu). destruct (built_bin ord _ _ _ Ho Hm' HT' Ec' (rand 0%nat q) ltac:(lra)) as (b & Hb & Eb & _). rewrite Fl, Lm in Hb. exists b. split; [apply Lk, Hb|exact Eb]. }
  rewrite (R5 (or_introl eq_refl)) in R1. exists G, vals. split; [exact EG|]. split; [exact R1|]. split; [exact R2|]. intros j Hj.
  destruct (R3 j Hj) as (Hi & Eb & Hv). destruct (sorted_draw _ _ _ j Hr Hj) as (q & _ & Eu & Hu). rewrite Eu in Eb. destruct (built_bin ord _ _ _ Ho Hm' HT' Ec' (rand 0%nat q) ltac:(lra)) as (b & Hb & Eb' & Hp).
  cbn [G g_idx g_csum] in Eb. rewrite Eb in Eb'. injection Eb' as E'. rewrite Fl in Hb, Hp. rewrite Lm in Hb. exists b. split; [exact Hb|]. split; [exact Hp|].
  assert (Ebin : bin j = repeat 0%nat (length edges - 1) ++ [b]).
  { rewrite <- (ravel_unravel _ _ Hi), E'. rewrite (unravel_small k); [unfold bin_shape; rewrite map_length; reflexivity|exact Hb| |exact Hk]. destruct edges; [cbn in H2; lia|discriminate]. }
  rewrite <- Ebin. intros d Hd. rewrite (Hv d Hd). cbv zeta. destruct (bin_edge _ _ d Hg Hi Hd) as [_ L]. apply in_bin_affine; [exact L|]. specialize (Hr (S d) j ltac:(lia) Hj). destruct interp; [apply pos_unit; lra|lra].
Qed.

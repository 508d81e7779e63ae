(** Proofs about dist2d and carpet. *)
From Coq Require Import String ZArith Permutation FunctionalExtensionality.
From Verif Require Import Base ModelLinAlg SpecLinAlg ModelKernels SpecKernels ModelKDE SpecKDE
  ProofKDE ProofTop2 ModelReflect ModelExtrema ModelInterp ModelResample ModelUtils ModelNd ModelGrid ModelSample ModelApi ModelPlot ModelDist
  SpecUtils SpecNd SpecGrid SpecPlot SpecApi SpecDist ProofUtils ProofUtils2 ProofUtils3 ProofUtils4 ProofExtrema ProofNd ProofNd2 ProofGrid ProofGrid2 ProofSample ProofApi ProofPlot2 ProofMarginal ProofMarginal2 ProofDist.
Open Scope R_scope.
Notation length := List.length.

(* ------------------------------------------------------------ edges of dist2d *)
Lemma raw_ok sorter e row lo hi ndim : row <> [] -> lo < hi -> wants_bins e ->
  exists g, get_edges_raw sorter e row (XPair (Some lo) (Some hi)) ndim 0 = Ok g /\ spans g lo hi.
Proof.
  intros Hne Hlt He. destruct (guess_ok sorter row lo hi ndim None 5 1000 1 0 Hne Hlt ltac:(lra) I) as (n & bwd & E & Hb & Hn).
  assert (HL : forall k, (1 <= k)%nat -> spans (linspace (lo - 0 * bwd) (hi + 0 * bwd) (k + 1)) lo hi).
  { intros k Hk. replace (lo - 0 * bwd) with lo by ring. replace (hi + 0 * bwd) with hi by ring.
    assert (U : uniform (linspace lo hi (k + 1)) lo hi) by (apply linspace_uniform; lia). split; [exact U|].
    apply (uniform_incr _ lo hi U); [rewrite linspace_length; lia|exact Hlt]. }
  destruct e as [|k|l]; [| |destruct He]; unfold get_edges_raw, get_edges_1d; rewrite E; cbn [bind fst snd]; eexists; (split; [reflexivity|]); apply HL; [lia|exact He].
Qed.
Lemma raw_none sorter e row b ndim pad : wants_bins e -> ~ full b -> get_edges_raw sorter e row (bnd_exelt b) ndim pad = Err TypeError.
Proof.
  intros He Hf. destruct e; [| |destruct He]; destruct b as [[[lo|] [hi|]]|]; try reflexivity; exfalso; apply Hf; exists lo, hi; reflexivity.
Qed.

Lemma rows_3d K p q : (2 < kd_ndim K)%nat -> (p < kd_ndim K)%nat -> (q < kd_ndim K)%nat ->
  dist2d_rows K [p; q] = Ok [coords p (kd_data K); coords q (kd_data K)].
Proof.
  intros H3 Hp Hq. unfold dist2d_rows. apply Nat.ltb_lt in H3, Hp, Hq. rewrite H3. cbn [length Nat.eqb negb forallb]. rewrite Hp, Hq. reflexivity.
Qed.
Lemma rows_2d K params : kd_ndim K = 2%nat -> dist2d_rows K params = Ok [coords 0 (kd_data K); coords 1 (kd_data K)].
Proof. intros H. unfold dist2d_rows. rewrite H. reflexivity. Qed.

Lemma bins_3d : forall sorter K r p q e, kd_data K <> [] -> kd_reflect K = Some r -> length r = kd_ndim K -> (2 < kd_ndim K)%nat ->
  (p < kd_ndim K)%nat -> (q < kd_ndim K)%nat -> wants_bins e -> (forall k lo hi, In k [p; q] -> both_ends (nth k r None) lo hi -> lo < hi) ->
  exists rows, dist2d_rows K [p; q] = Ok rows
  /\ (~ (full (nth p r None) /\ full (nth q r None)) -> dist2d_edges sorter K rows [p; q] (EdAll e) = Err TypeError)
  /\ (forall lx hx ly hy, both_ends (nth p r None) lx hx -> both_ends (nth q r None) ly hy ->
      exists ex ey, dist2d_edges sorter K rows [p; q] (EdAll e) = Ok [ex; ey] /\ spans ex lx hx /\ spans ey ly hy).
Proof.
  intros sorter K r p q e Hne Hr Hl H3 Hp Hq He Hlt. eexists. split; [apply rows_3d; assumption|].
  set (rows := [coords p (kd_data K); coords q (kd_data K)]).
  assert (N : forall k, (k < kd_ndim K)%nat -> nth_error (map bnd_exelt r) k = Some (bnd_exelt (nth k r None))).
  { intros k Hk. rewrite nth_error_map. rewrite (nth_error_nth' r None) by lia. reflexivity. }
  assert (E : dist2d_edges sorter K rows [p; q] (EdAll e)
    = (do ex <- get_edges_raw sorter e (coords p (kd_data K)) (bnd_exelt (nth p r None)) 2 0 ;;
       do ey <- get_edges_raw sorter e (coords q (kd_data K)) (bnd_exelt (nth q r None)) 2 0 ;; Ok [ex; ey])).
  { unfold dist2d_edges. rewrite Hr. cbn [option_map]. unfold parse_extrema_params. rewrite map_length, map_length.
    replace (Nat.eqb (length r) (length rows)) with false by (symmetry; apply Nat.eqb_neq; unfold rows; cbn [length]; lia).
    cbn [mapM]. rewrite !N by assumption. cbn [bind length rows repeat seq mapM nth].
    destruct (get_edges_raw _ _ _ (bnd_exelt (nth p r None)) _ _); [|reflexivity]. cbn [bind].
    destruct (get_edges_raw _ _ _ (bnd_exelt (nth q r None)) _ _); reflexivity. }
  assert (C : forall k, coords k (kd_data K) <> []) by (intros k; unfold coords; destruct (kd_data K); [congruence|discriminate]).
  rewrite E. split.
  - intros Hf. assert (D : full (nth p r None) \/ ~ full (nth p r None)).
    { destruct (nth p r None) as [[[lo|] [hi|]]|]; try (right; intros (a & b & H); discriminate H). left. exists lo, hi. reflexivity. }
    destruct D as [(lo & hi & Hb)|D].
    + rewrite Hb. cbn [bnd_exelt]. destruct (raw_ok sorter e (coords p (kd_data K)) lo hi 2 (C p)) as (g & -> & _); [apply (Hlt p); [left; reflexivity|exact Hb]|exact He|].
      cbn [bind]. rewrite raw_none; [reflexivity|exact He|]. intros Hq'. apply Hf. split; [exists lo, hi; exact Hb|exact Hq'].
    + rewrite raw_none by assumption. reflexivity.
  - intros lx hx ly hy Hx Hy. pose proof (Hlt p lx hx ltac:(left; reflexivity) Hx). pose proof (Hlt q ly hy ltac:(right; left; reflexivity) Hy).
    rewrite Hx, Hy. cbn [bnd_exelt].
    destruct (raw_ok sorter e (coords p (kd_data K)) lx hx 2 (C p)) as (ex & -> & Sx); [assumption|exact He|].
    destruct (raw_ok sorter e (coords q (kd_data K)) ly hy 2 (C q)) as (ey & -> & Sy); [assumption|exact He|].
    exists ex, ey. split; [reflexivity|]. split; assumption.
Qed.

Lemma bins_2d : forall sorter K r params e, kd_data K <> [] -> kd_reflect K = Some r -> length r = 2%nat -> kd_ndim K = 2%nat ->
  (exists k, (k < 2)%nat /\ nth k r None <> None) -> wants_bins e ->
  let fx := filled (nth 0 r None) (coords 0 (kd_data K)) in let fy := filled (nth 1 r None) (coords 1 (kd_data K)) in
  fst fx < snd fx -> fst fy < snd fy ->
  exists rows ex ey, dist2d_rows K params = Ok rows /\ dist2d_edges sorter K rows params (EdAll e) = Ok [ex; ey]
    /\ spans ex (fst fx) (snd fx) /\ spans ey (fst fy) (snd fy).
Proof.
  intros sorter K r params e Hne Hr Hl Hn Hex He fx fy Hx Hy.
  assert (C : forall k, coords k (kd_data K) <> []) by (intros k; unfold coords; destruct (kd_data K); [congruence|discriminate]).
  destruct r as [|b0 [|b1 [|b2 r]]]; try discriminate Hl. cbn [nth] in *.
  set (r0 := coords 0 (kd_data K)) in *. set (r1 := coords 1 (kd_data K)) in *.
  assert (EP : parse_extrema [(lmin r0, lmax r0); (lmin r1, lmax r1)] (Some [bnd_exelt b0; bnd_exelt b1]) = Ok [fx; fy]).
  { destruct (parse_per_dim [(lmin r0, lmax r0); (lmin r1, lmax r1)] [bnd_exelt b0; bnd_exelt b1]) as (l & E & L & V).
    - reflexivity.
    - intros x [<-|[<-|[]]]; [destruct b0 as [[lo hi]|]|destruct b1 as [[lo hi]|]]; cbn [bnd_exelt]; eauto.
    - destruct Hex as (k & Hk & Hb). destruct k as [|[|k]]; [| |lia]; cbn [nth] in Hb.
      + destruct b0 as [[lo hi]|]; [|congruence]. exists lo, hi. left. reflexivity.
      + destruct b1 as [[lo hi]|]; [|congruence]. exists lo, hi. right. left. reflexivity.
    - rewrite E. f_equal. destruct l as [|x [|y [|z l]]]; try discriminate L. pose proof (V 0%nat ltac:(cbn; lia)) as V0. pose proof (V 1%nat ltac:(cbn; lia)) as V1.
      cbn [nth fst snd] in V0, V1. rewrite V0, V1. unfold fx, fy, filled. destruct b0 as [[lo hi]|], b1 as [[lo' hi']|]; reflexivity. }
  destruct (raw_ok sorter e r0 (fst fx) (snd fx) 2 (C 0%nat) Hx He) as (ex & Ex & Sx).
  destruct (raw_ok sorter e r1 (fst fy) (snd fy) 2 (C 1%nat) Hy He) as (ey & Ey & Sy).
  exists [r0; r1], ex, ey. split; [apply rows_2d, Hn|]. split; [|split; assumption].
  unfold dist2d_edges. rewrite Hr. cbn [option_map map]. unfold parse_extrema_params. cbn [map length Nat.eqb]. rewrite EP. cbn [bind map].
  cbn [repeat seq mapM nth]. rewrite Ex. cbn [bind]. rewrite Ey. reflexivity.
Qed.

(* ------------------------------------------------------------ hidden bins *)
Lemma largest_ex (qs : list R) : qs <> [] -> exists q, largest q qs.
Proof.
  intros H. exists (lmax qs). split; [apply lmax_in, H|]. intros p Hp. apply lmax_ge, Hp.
Qed.
Lemma vmin_le x r u : In u (x :: r) -> vmin x r <= u.
Proof. intros H. apply (proj2 (vmin_spec x r)), H. Qed.
Lemma mask_level : forall a quantiles sigmas q, (forall v, entry a v -> 0 <= v) -> 0 < total_of a -> largest q (fst (default_quantiles quantiles sigmas)) ->
  exists m, dist2d_mask a quantiles sigmas MbTrue = Ok (Some m) /\ level_for a q m.
Proof.
  intros a quantiles sigmas q Hn Ht [Hq Hmax]. destruct (dfm_levels_spec a quantiles sigmas Hn Ht) as (sg & levels & qs & ls & E & Eq & F & P & _).
  assert (Eqs : fst (default_quantiles quantiles sigmas) = qs) by (rewrite <- Eq; reflexivity). rewrite Eqs in *.
  unfold dist2d_mask. rewrite E. cbn [bind fst snd].
  assert (Hv : exists v, In v ls /\ level_for a q v).
  { clear - F Hq. induction F as [|x y qs ls H F IH]; [destruct Hq|]. destruct Hq as [-> |Hq]; [exists y; split; [left; reflexivity|exact H]|].
    destruct (IH Hq) as (v & A & B). exists v. split; [right; exact A|exact B]. }
  destruct Hv as (v & Hin & Hlev).
  destruct levels as [|x r]; [exfalso; apply Permutation_sym in P; apply Permutation_nil in P; subst ls; destruct Hin|].
  exists v. split; [|exact Hlev]. do 2 f_equal.
  assert (Hall : forall u, In u (x :: r) -> v <= u).
  { intros u Hu. apply (Permutation_in _ (Permutation_sym P)) in Hu. assert (G : exists p, In p qs /\ level_for a p u).
    { clear - F Hu. induction F as [|x y qs ls H F IH]; [destruct Hu|]. destruct Hu as [-> |Hu]; [exists x; split; [left; reflexivity|exact H]|].
      destruct (IH Hu) as (p & A & B). exists p. split; [right; exact A|exact B]. }
    destruct G as (p & Hp & Hl). apply (level_monotone a p q u v); [lra|apply Hmax, Hp|exact Hl|exact Hlev]. }
  apply Rle_antisym.
  - apply (Permutation_in _ P) in Hin. apply vmin_le, Hin.
  - apply Hall, vmin_in.
Qed.

Definition hidden_in (m : option R) (v : R) : Prop := hist2d_hidden m v = true.
Lemma level_pos a q m : (forall v, entry a v -> 0 <= v) -> 0 < total_of a -> q < 1 -> level_for a q m -> 0 < m.
Proof.
  intros Hn Ht Hq (He & Hc & Hl). pose proof (Hn m He) as [H|H]; [exact H|]. exfalso. subst m.
  assert (Ea : above a 0 = total_of a).
  { unfold above, total_of. apply asum_ext. intros idx Hi. destruct (Rltb_spec 0 (at_ a idx)) as [|N]; [reflexivity|].
    pose proof (Hn (at_ a idx) (ex_intro _ idx (conj Hi eq_refl))). lra. }
  destruct Hc as [Hc|Hc].
  - assert (total_of a = 0); [|lra]. unfold total_of. apply asum_zero. intros idx Hi. pose proof (Hc (at_ a idx) (ex_intro _ idx (conj Hi eq_refl))). pose proof (Hn (at_ a idx) (ex_intro _ idx (conj Hi eq_refl))). lra.
  - rewrite Ea in Hc. nra.
Qed.
Lemma rsum_term_le n f k : (k < n)%nat -> (forall i, (i < n)%nat -> 0 <= f i) -> f k <= rsum n f.
Proof.
  revert k. induction n as [|n IH]; intros k Hk Hf; [lia|]. cbn [rsum]. destruct (Nat.eq_dec k n) as [-> |Hne].
  - pose proof (rsum_nonneg n f ltac:(intros; apply Hf; lia)). lra.
  - specialize (IH k ltac:(lia) ltac:(intros; apply Hf; lia)). pose proof (Hf n ltac:(lia)). lra.
Qed.
Lemma inb2 n m i j : inb [n; m] [i; j] <-> (i < n)%nat /\ (j < m)%nat.
Proof.
  split.
  - intros H. inversion H as [|? ? ? ? H1 H2]; subst. inversion H2; subst. split; assumption.
  - intros [H1 H2]. repeat constructor; assumption.
Qed.
Lemma entry2 a n m v : shp a = [n; m] -> (entry a v <-> exists i j, (i < n)%nat /\ (j < m)%nat /\ at_ a [i; j] = v).
Proof.
  intros S. unfold entry. rewrite S. split.
  - intros (idx & H & E). inversion H as [|i ? idx' ? H1 H2]; subst. inversion H2 as [|j ? idx'' ? H3 H4]; subst. inversion H4; subst.
    exists i, j. auto.
  - intros (i & j & H1 & H2 & E). exists [i; j]. split; [apply inb2; split; assumption|exact E].
Qed.
Lemma bin_weight_nonneg ex ey data ws i j : (forall v, In v ws -> 0 <= v) -> 0 <= bin_weight2d ex ey data ws i j.
Proof.
  intros H. unfold bin_weight2d. apply sumf_nonneg. intros [[x y] w] Hin. cbn [fst snd]. apply in_combine_r in Hin.
  destruct (andb _ _); [apply H, Hin|lra].
Qed.
Lemma density2d_nonneg ex ey data ws i j : incr_list ex -> incr_list ey -> (forall v, In v ws -> 0 <= v) ->
  (i < length ex - 1)%nat -> (j < length ey - 1)%nat -> 0 <= density2d ex ey data ws i j.
Proof.
  intros Hx Hy Hw Hi Hj. unfold density2d. set (S := rsum _ _).
  assert (HS : 0 <= S) by (apply rsum_nonneg; intros; apply rsum_nonneg; intros; apply bin_weight_nonneg, Hw).
  assert (Dx : 0 < vget ex (Datatypes.S i) - vget ex i) by (apply Rlt_Rminus, Hx; lia).
  assert (Dy : 0 < vget ey (Datatypes.S j) - vget ey j) by (apply Rlt_Rminus, Hy; lia).
  pose proof (bin_weight_nonneg ex ey data ws i j Hw) as Hb.
  assert (H1 : 0 <= bin_weight2d ex ey data ws i j / (vget ex (Datatypes.S i) - vget ex i) / (vget ey (Datatypes.S j) - vget ey j)).
  { unfold Rdiv. apply Rmult_le_pos; [apply Rmult_le_pos; [exact Hb|]|]; left; apply Rinv_0_lt_compat; assumption. }
  destruct HS as [HS|HS]; [apply Rmult_le_pos; [exact H1|left; apply Rinv_0_lt_compat, HS]|].
  assert (Eb : bin_weight2d ex ey data ws i j = 0).
  { apply Rle_antisym; [|exact Hb]. rewrite HS. unfold S.
    apply Rle_trans with (rsum (length ey - 1) (fun j' => bin_weight2d ex ey data ws i j')).
    - apply (rsum_term_le _ (fun j' => bin_weight2d ex ey data ws i j') j Hj). intros; apply bin_weight_nonneg, Hw.
    - apply (rsum_term_le _ (fun i' => rsum (length ey - 1) (fun j' => bin_weight2d ex ey data ws i' j')) i Hi). intros; apply rsum_nonneg; intros; apply bin_weight_nonneg, Hw. }
  rewrite Eb. unfold Rdiv. rewrite !Rmult_0_l. lra.
Qed.
Lemma masked_hist : forall ex ey data ws quantiles sigmas q, incr_list ex -> incr_list ey -> (forall v, In v ws -> 0 <= v) ->
  let nx := (length ex - 1)%nat in let ny := (length ey - 1)%nat in let value := density2d ex ey data ws in
  (exists i j, (i < nx)%nat /\ (j < ny)%nat /\ 0 < value i j) ->
  largest q (fst (default_quantiles quantiles sigmas)) -> 0 <= q < 1 ->
  exists show m, dist2d_hist ex ey data ws quantiles sigmas MbTrue = Ok show /\ 0 < m
  /\ (forall i j, (i < nx)%nat -> (j < ny)%nat -> show i j = if Rleb (value i j) m then None else Some (value i j))
  /\ (exists i j, (i < nx)%nat /\ (j < ny)%nat /\ 0 < value i j /\ show i j = None)
  /\ sum_drawn nx ny show <= q * sum_all nx ny value
  /\ (forall u, (exists i j, (i < nx)%nat /\ (j < ny)%nat /\ value i j = u) -> u < m ->
      q * sum_all nx ny value < sum_all nx ny (fun i j => if Rltb u (value i j) then value i j else 0) + u).
Proof.
  intros ex ey data ws quantiles sigmas q Hx Hy Hw nx ny value (i0 & j0 & Hi0 & Hj0 & H0) Hq [Hq0 Hq1].
  set (a := hist2d_array ex ey data ws). assert (Sa : shp a = [nx; ny]) by reflexivity.
  assert (Va : forall i j, at_ a [i; j] = value i j) by reflexivity.
  assert (Hn : forall v, entry a v -> 0 <= v).
  { intros v Hv. apply (entry2 _ _ _ _ Sa) in Hv. destruct Hv as (i & j & Hi & Hj & <-). rewrite Va. apply density2d_nonneg; assumption. }
  assert (ET : total_of a = sum_all nx ny value) by reflexivity.
  assert (EA : forall u, above a u = sum_all nx ny (fun i j => if Rltb u (value i j) then value i j else 0)) by reflexivity.
  assert (Ht : 0 < total_of a).
  { apply Rlt_le_trans with (1 := H0). rewrite ET. unfold sum_all.
    apply Rle_trans with (rsum ny (fun j => value i0 j)).
    - apply (rsum_term_le _ (fun j => value i0 j) j0 Hj0). intros; apply density2d_nonneg; assumption.
    - apply (rsum_term_le _ (fun i => rsum ny (fun j => value i j)) i0 Hi0). intros; apply rsum_nonneg; intros; apply density2d_nonneg; assumption. }
  destruct (mask_level a quantiles sigmas q Hn Ht Hq) as (m & E & Hlev). pose proof (level_pos a q m Hn Ht Hq1 Hlev) as Hm.
  destruct (level_encloses a q m Hq0 ltac:(lra) Hn Hlev) as [HA HB].
  assert (Hh : forall v, hist2d_hidden (Some m) v = Rleb v m) by (intros v; unfold hist2d_hidden; destruct (Reqb_spec m 0); [lra|reflexivity]).
  eexists. exists m. split; [unfold dist2d_hist; fold a; rewrite E; cbn [bind]; reflexivity|]. split; [exact Hm|]. cbv beta.
  split; [intros i j _ _; rewrite Hh; reflexivity|]. split; [|split].
  - destruct Hlev as (He & _). apply (entry2 _ _ _ _ Sa) in He. destruct He as (i & j & Hi & Hj & Em). exists i, j. rewrite Va in *. rewrite Em.
    split; [exact Hi|]. split; [exact Hj|]. split; [exact Hm|]. rewrite Hh. destruct (Rleb_spec m m); [reflexivity|lra].
  - rewrite <- ET. apply Rle_trans with (above a m); [|exact HA]. right. rewrite EA. unfold sum_drawn, sum_all. apply rsum_ext. intros i _. apply rsum_ext. intros j _.
    rewrite Hh, Va. destruct (Rleb_spec (value i j) m), (Rltb_spec m (value i j)); lra || reflexivity.
  - intros u (i & j & Hi & Hj & Eu) Hu. rewrite <- ET, <- EA. apply HB; [|exact Hu]. apply (entry2 _ _ _ _ Sa). exists i, j. auto.
Qed.

(* ------------------------------------------------------------ the order of the parameters *)
Lemma contour_grid K g f p q : (1 < kd_ndim K)%nat -> (p < kd_ndim K)%nat -> (q < kd_ndim K)%nat ->
  kde_density K false 2 None (PList [p; q]) = Ok f ->
  exists a, dist2d_contour K [p; q] false (Ok g) = Ok (PtRows [nth p g []; nth q g []], a)
  /\ shp a = [length (nth p g []); length (nth q g [])]
  /\ forall i j, (i < length (nth p g []))%nat -> (j < length (nth q g []))%nat ->
     at_ a [i; j] = f (fun d => nth (nth d [i; j] 0%nat) (nth d [nth p g []; nth q g []] []) 0).
Proof.
  intros Hn Ha Hb Hf. set (rows := [nth p g []; nth q g []]).
  destruct (density_grid_pointwise K false None (PList [p; q]) rows f Hf) as (a & E & S & V). exists a. split; [|split; [exact S|]].
  - unfold dist2d_contour, density_values, resolve_params. destruct (Nat.eqb_spec (kd_ndim K) 1); [lia|]. cbn [forallb].
    apply Nat.ltb_lt in Ha, Hb. rewrite Ha, Hb. cbn [andb bind map]. fold rows. change (Nat.ltb 1 (length rows)) with true. cbv iota.
    rewrite E. reflexivity.
  - intros i j Hi Hj. rewrite V by (rewrite S; apply inb2; split; assumption). reflexivity.
Qed.
(** A density depends on as many coordinates as there are parameters. *)
Lemma density_local n data ws d M K (prob : bool) ps f x y : built_kde n data ws d M None K -> n <> 1%nat -> NoDup ps -> (forall q, In q ps -> (q < n)%nat) ->
  kde_density K prob (length ps) None (PList ps) = Ok f -> (forall i, (i < length ps)%nat -> x i = y i) -> f x = f y.
Proof.
  intros HB Hn1 Hnd Hq Hf Hxy. destruct (built_inv _ _ _ _ _ _ _ HB) as (En & Ed & Hne & Er & Ew & Hl & Hnn & Hp & Et & Ek & Hs & Hpd).
  rewrite (density_as_kernel_params _ _ _ _ _ _ prob ps HB Hn1 Hq) in Hf.
  destruct (kernel_density_params d n M ps (map (select ps) data) ws Hs Hpd Hnd Hq) as [N [W [_ [_ [_ [_ [_ Hk]]]]]]].
  { rewrite map_length; exact Hl. }
  rewrite Hk in Hf. cbn [bind] in Hf. injection Hf as <-. rewrite !scaled_val by exact Hp. f_equal. f_equal.
  apply sumf_ext. intros [p w] _. cbn [fst snd]. f_equal. f_equal. apply white_dist2_ext; [exact Hxy|reflexivity].
Qed.
Lemma params_swapped_2d : forall data ws d M K gx gy, built_kde 2 data ws d M None K ->
  dist2d_rows K [0%nat; 1%nat] = Ok [coords 0 data; coords 1 data] /\ dist2d_rows K [1%nat; 0%nat] = Ok [coords 0 data; coords 1 data]
  /\ exists f a b, kde_density K false 2 None PNone = Ok f
  /\ dist2d_contour K [0%nat; 1%nat] false (Ok [gx; gy]) = Ok (PtRows [gx; gy], a)
  /\ dist2d_contour K [1%nat; 0%nat] false (Ok [gx; gy]) = Ok (PtRows [gy; gx], b)
  /\ forall i j, (i < length gx)%nat -> (j < length gy)%nat ->
     at_ a [i; j] = f (fun d => match d with O => vget gx i | 1%nat => vget gy j | _ => 0 end) /\ at_ b [j; i] = at_ a [i; j].
Proof.
  intros data ws d M K gx gy HB. destruct (built_inv _ _ _ _ _ _ _ HB) as (En & Ed & _).
  split; [rewrite rows_2d, Ed by exact En; reflexivity|]. split; [rewrite rows_2d, Ed by exact En; reflexivity|].
  destruct (top_integral 2 data ws d M K false (fun _ => 0) ltac:(lia) HB) as [f [Hf _]].
  assert (Hq : forall ps, Permutation ps [0%nat; 1%nat] -> forall q, In q ps -> (q < 2)%nat).
  { intros ps HP q Hq. apply (Permutation_in _ HP) in Hq. destruct Hq as [<-|[<-|[]]]; lia. }
  assert (P01 : Permutation [1%nat; 0%nat] [0%nat; 1%nat]) by apply perm_swap.
  assert (ND : NoDup [0%nat; 1%nat]) by (repeat constructor; cbn; intuition discriminate).
  destruct (top_params_ok 2 data ws d M K false [0%nat; 1%nat] HB ltac:(lia) ND (Hq _ (Permutation_refl _))) as [f1 Hf1].
  destruct (top_params_ok 2 data ws d M K false [1%nat; 0%nat] HB ltac:(lia) (Permutation_NoDup (Permutation_sym P01) ND) (Hq _ P01)) as [f2 Hf2].
  cbn [length] in Hf1, Hf2.
  assert (E1 : forall x, f1 (select [0%nat; 1%nat] x) = f x) by (intros x; apply (top_params_perm 2 data ws d M K false [0%nat; 1%nat]); try assumption; [lia|apply Permutation_refl]).
  assert (E2 : forall x, f2 (select [1%nat; 0%nat] x) = f x) by (intros x; apply (top_params_perm 2 data ws d M K false [1%nat; 0%nat]); try assumption; lia).
  destruct (contour_grid K [gx; gy] f1 0 1) as (a & Ea & Sa & Va); try (rewrite En; lia); [exact Hf1|].
  destruct (contour_grid K [gx; gy] f2 1 0) as (b & Eb & Sb & Vb); try (rewrite En; lia); [exact Hf2|].
  cbn [nth] in *. exists f, a, b. split; [exact Hf|]. split; [exact Ea|]. split; [exact Eb|]. intros i j Hi Hj.
  rewrite Va, Vb by assumption.
  set (x := (fun d : nat => match d with O => vget gx i | 1%nat => vget gy j | _ => 0 end) : pt).
  assert (F1 : f1 (fun d => nth (nth d [i; j] 0%nat) (nth d [gx; gy] []) 0) = f x) by (rewrite <- E1; apply (density_local 2 data ws d M K false [0%nat; 1%nat] f1 _ _ HB ltac:(lia) ND (Hq _ (Permutation_refl _)) Hf1); intros [|[|k]] Hk; cbn in Hk; try lia; reflexivity).
  assert (F2 : f2 (fun d => nth (nth d [j; i] 0%nat) (nth d [gy; gx] []) 0) = f x) by (rewrite <- E2; apply (density_local 2 data ws d M K false [1%nat; 0%nat] f2 _ _ HB ltac:(lia) (Permutation_NoDup (Permutation_sym P01) ND) (Hq _ P01) Hf2); intros [|[|k]] Hk; cbn in Hk; try lia; reflexivity).
  split; [exact F1|]. etransitivity; [exact F2|]. symmetry. exact F1.
Qed.
Lemma params_chosen : forall n data ws d M K g p q, built_kde n data ws d M None K -> (2 < n)%nat -> (p < n)%nat -> (q < n)%nat -> p <> q ->
  dist2d_rows K [p; q] = Ok [coords p data; coords q data]
  /\ exists a, dist2d_contour K [p; q] false (Ok g) = Ok (PtRows [nth p g []; nth q g []], a).
Proof.
  intros n data ws d M K g p q HB Hn Hp Hq Hpq. destruct (built_inv _ _ _ _ _ _ _ HB) as (En & Ed & _).
  split; [rewrite rows_3d by (rewrite En; assumption); rewrite Ed; reflexivity|].
  destruct (top_params_ok n data ws d M K false [p; q] HB ltac:(lia)) as [f Hf].
  - constructor; [intros [H|[]]; congruence|]. constructor; [intros []|constructor].
  - intros k [<-|[<-|[]]]; assumption.
  - destruct (contour_grid K g f p q) as (a & Ea & _); try (rewrite En; lia); [exact Hf|]. exists a. exact Ea.
Qed.

(* ------------------------------------------------------------ data instead of a KDE *)
Lemma dist2d_bad_weights : forall rows w, columns rows <> [] -> ~ valid_weights (length (columns rows)) w ->
  snd (kde_call (length rows) (columns rows) (WArr w) RNone default_kw) = Err ValueError /\ dist2d_kde rows (WArr w) = Err RuntimeError.
Proof.
  intros rows w Hne Hw. assert (E : snd (kde_call (length rows) (columns rows) (WArr w) RNone default_kw) = Err ValueError).
  { unfold kde_call, kde_new, default_kw. cbn. unfold kde_init. destruct (Nat.eqb_spec (length (columns rows)) 0) as [E|_]; [destruct (columns rows); [congruence|discriminate]|].
    rewrite (proj2 (check_weights_iff _ _) Hw). reflexivity. }
  split; [exact E|]. unfold dist2d_kde. rewrite E. reflexivity.
Qed.
Lemma dist2d_good : forall rows w K, snd (kde_call (length rows) (columns rows) w RNone default_kw) = Ok K <-> dist2d_kde rows w = Ok K.
Proof. intros rows w K. unfold dist2d_kde. destruct (snd _); split; intros H; try discriminate H; exact H. Qed.

(* ------------------------------------------------------------ carpet *)
Lemma iqrange_ok sorter l (b : bool) : l <> [] -> exists q, iqrange sorter l b None = Ok q.
Proof.
  intros H. unfold iqrange. set (v := if b then map log10 l else l). assert (Hv : v <> []) by (unfold v; destruct b, l; try congruence; discriminate).
  rewrite quantiles_unweighted. assert (Hf : fractions [3 / 4; 1 / 4]) by (intros p [<-|[<-|[]]]; lra).
  destruct (quantiles_total sorter v [3/4;1/4] (map (fun _ => 1) v) Hv (map_length _ _) Hf) as [qs [E _]].
  rewrite E. eexists. reflexivity.
Qed.
Lemma np_sort_in l x : In x (np_sort l) <-> In x l.
Proof. split; apply Permutation_in; [apply Permutation_sym|]; apply sort_perm. Qed.
(** The median is that of the sorted values. *)
Lemma nondecr_tail x l : nondecr_list (x :: l) -> nondecr_list l.
Proof. intros H i j Hij Hj. apply (H (S i) (S j)); cbn [List.length]; lia. Qed.
Lemma nondecr_head x l : nondecr_list (x :: l) -> forall y, In y l -> x <= y.
Proof. intros H y Hy. destruct (In_nth l y 0 Hy) as [k [Hk <-]]. apply (H O (S k)); cbn [List.length]; lia. Qed.
Lemma sorted_unique l : forall m, Permutation l m -> nondecr_list l -> nondecr_list m -> l = m.
Proof.
  induction l as [|x l IH]; intros m HP Hl Hm.
  - apply Permutation_nil in HP. symmetry. exact HP.
  - destruct m as [|y m]; [apply Permutation_sym, Permutation_nil in HP; discriminate HP|].
    assert (E : x = y).
    { apply Rle_antisym.
      - destruct (Permutation_in _ (Permutation_sym HP) (or_introl eq_refl)) as [<-|H]; [lra|apply (nondecr_head _ _ Hl), H].
      - destruct (Permutation_in _ HP (or_introl eq_refl)) as [<-|H]; [lra|apply (nondecr_head _ _ Hm), H]. }
    subst y. f_equal. apply IH; [apply Permutation_cons_inv with x, HP|apply nondecr_tail with x, Hl|apply nondecr_tail with x, Hm].
Qed.
Lemma median_unique l m m' : median_of l m -> median_of l m' -> m = m'.
Proof.
  intros (s & P & N & E) (s' & P' & N' & E'). assert (s = s') by (apply sorted_unique; try assumption; apply Permutation_trans with l; [apply Permutation_sym|]; assumption).
  subst s'. cbv zeta in E, E'. congruence.
Qed.
Lemma np_median_is l : median_of l (np_median l).
Proof.
  exists (np_sort l). destruct (np_sort_spec l) as [P N]. split; [exact P|]. split; [exact N|]. unfold np_median, vget. cbv zeta.
  destruct (Nat.even (length l)) eqn:E.
  - apply Nat.even_spec in E. destruct E as [k E]. rewrite E. replace (2 * k / 2)%nat with k by (rewrite Nat.mul_comm, Nat.div_mul; lia).
    destruct k as [|k]; [reflexivity|]. replace ((2 * S k - 1) / 2)%nat with (S k - 1)%nat; [reflexivity|].
    replace (2 * S k - 1)%nat with (1 + k * 2)%nat by lia. rewrite Nat.div_add by lia. cbn. lia.
  - assert (O : Nat.odd (length l) = true) by (unfold Nat.odd; rewrite E; reflexivity). apply Nat.odd_spec in O. destruct O as [k O]. rewrite O.
    replace ((2 * k + 1 - 1) / 2)%nat with k by (replace (2 * k + 1 - 1)%nat with (k * 2)%nat by lia; rewrite Nat.div_mul; lia).
    replace ((2 * k + 1) / 2)%nat with k by (replace (2 * k + 1)%nat with (1 + k * 2)%nat by lia; rewrite Nat.div_add by lia; reflexivity). lra.
Qed.
Lemma median_between l a b : l <> [] -> (forall x, In x l -> a < x < b) -> a < np_median l < b.
Proof.
  intros Hne H. unfold np_median. assert (L : (1 <= length l)%nat) by (destruct l; [congruence|cbn; lia]).
  assert (G : forall k, (k < length l)%nat -> a < vget (np_sort l) k < b).
  { intros k Hk. apply H, np_sort_in. apply nth_In. rewrite np_sort_length. exact Hk. }
  assert (H2 : (length l / 2 < length l)%nat) by (apply Nat.div_lt; lia).
  destruct (Nat.even (length l)); [|apply G, H2].
  pose proof (G (length l / 2 - 1)%nat ltac:(lia)). pose proof (G _ H2). lra.
Qed.
Definition size_of_weight (n : nat) (med x : R) : R := Rmin (Rmax (300 * (x / med) / sqrt (INR n)) 5) 100.
Lemma sizes_run n w med : med <> 0 ->
  map (fun x => clip_size (match x with Fin r => Fin (300 * r / sqrt (INR n)) | y => y end)) (map (fun x => fdiv x med) w)
  = map Fin (map (size_of_weight n med) w).
Proof.
  intros Hm. rewrite !map_map. apply map_ext. intros x. unfold fdiv. destruct (Reqb_spec med 0); [contradiction|]. reflexivity.
Qed.
Lemma clip_mono x y : x <= y -> Rmin (Rmax x 5) 100 <= Rmin (Rmax y 5) 100.
Proof. intros H. apply Rle_min_compat_r, Rle_max_compat_r, H. Qed.
Lemma size_bounds n med x : 5 <= size_of_weight n med x <= 100.
Proof.
  unfold size_of_weight. set (t := 300 * (x / med) / sqrt (INR n)). split; [|apply Rmin_r].
  apply Rmin_glb; [apply Rmax_r|lra].
Qed.
Lemma size_mono n med x y : (1 <= n)%nat -> 0 < med -> x <= y -> size_of_weight n med x <= size_of_weight n med y.
Proof.
  intros Hn Hm H. apply clip_mono. assert (0 < sqrt (INR n)) by (apply sqrt_lt_R0, lt_0_INR; lia).
  unfold Rdiv. apply Rmult_le_compat_r; [left; apply Rinv_0_lt_compat; assumption|]. apply Rmult_le_compat_l; [lra|].
  apply Rmult_le_compat_r; [left; apply Rinv_0_lt_compat; assumption|exact H].
Qed.
Lemma size_anti n med x y : (1 <= n)%nat -> med < 0 -> x <= y -> size_of_weight n med y <= size_of_weight n med x.
Proof.
  intros Hn Hm H. apply clip_mono. assert (0 < sqrt (INR n)) by (apply sqrt_lt_R0, lt_0_INR; lia).
  unfold Rdiv. apply Rmult_le_compat_r; [left; apply Rinv_0_lt_compat; assumption|]. apply Rmult_le_compat_l; [lra|].
  assert (/ med < 0) by (apply Rinv_lt_0_compat, Hm). nra.
Qed.
Lemma log10_le x y : 0 < x -> x <= y -> log10 x <= log10 y.
Proof. intros Hx [H| ->]; [left; apply log10_lt; assumption|right; reflexivity]. Qed.
Lemma log10_1 : log10 1 = 0.
Proof. unfold log10. rewrite ln_1. unfold Rdiv. ring. Qed.
Lemma vget_map_in {A} (f : R -> A) (l : list R) d k : (k < length l)%nat -> nth k (map f l) d = f (vget l k).
Proof. intros H. rewrite (nth_indep _ d (f 0)) by (rewrite map_length; exact H). rewrite map_nth. reflexivity. Qed.

Lemma carpet_order : forall sorter n w, (1 <= n)%nat -> w <> [] -> (forall x, In x w -> 0 < x) ->
  exists q, iqrange sorter w true None = Ok q
  /\ (q <= 1 -> exists s, carpet_sizes sorter n w = Ok (map Fin s) /\ same_order w s /\ forall x, In x s -> 5 <= x <= 100)
  /\ (1 < q -> (forall x, In x w -> 1 < x) -> exists s, carpet_sizes sorter n w = Ok (map Fin s) /\ same_order w s /\ forall x, In x s -> 5 <= x <= 100)
  /\ (1 < q -> (forall x, In x w -> x < 1) -> exists s, carpet_sizes sorter n w = Ok (map Fin s) /\ opposite_order w s /\ forall x, In x s -> 5 <= x <= 100).
Proof.
  intros sorter n w Hn Hne Hp. destruct (iqrange_ok sorter w true Hne) as [q Eq]. exists q. split; [exact Eq|].
  assert (B : forall med (l : list R) x, In x (map (size_of_weight n med) l) -> 5 <= x <= 100) by (intros med l x Hx; apply in_map_iff in Hx; destruct Hx as [y [<- _]]; apply size_bounds).
  unfold carpet_sizes, carpet_weights. rewrite Eq. cbn [bind]. split; [|split].
  - intros Hq. destruct (Rltb_spec 1 q); [lra|]. assert (Hm : 0 < np_median w).
    { destruct (median_between w 0 (lmax w + 1) Hne) as [A _]; [|exact A]. intros x Hx. split; [apply Hp, Hx|]. pose proof (lmax_ge w x Hx). lra. }
    rewrite sizes_run by lra. eexists. split; [reflexivity|]. split; [|apply B]. split; [apply map_length|]. intros i j Hi Hj Hij.
    unfold vget at 1 2. rewrite !vget_map_in by assumption. apply size_mono; assumption.
  - intros Hq H1. destruct (Rltb_spec 1 q); [|lra]. set (l := map log10 w). assert (Hm : 0 < np_median l).
    { assert (Hl : l <> []) by (unfold l; destruct w; [congruence|discriminate]).
      destruct (median_between l 0 (lmax l + 1) Hl) as [A _]; [|exact A]. intros x Hx. split; [|pose proof (lmax_ge l x Hx); lra].
      apply in_map_iff in Hx. destruct Hx as [y [<- Hy]]. rewrite <- log10_1. apply log10_lt; [lra|apply H1, Hy]. }
    rewrite sizes_run by lra. eexists. split; [reflexivity|]. split; [|apply B]. unfold l. rewrite map_map. split; [apply map_length|]. intros i j Hi Hj Hij.
    unfold vget at 1 2. rewrite !vget_map_in by assumption. apply size_mono; [assumption|assumption|]. apply log10_le; [|exact Hij]. apply Hp, nth_In, Hi.
  - intros Hq H1. destruct (Rltb_spec 1 q); [|lra]. set (l := map log10 w). assert (Hm : np_median l < 0).
    { assert (Hl : l <> []) by (unfold l; destruct w; [congruence|discriminate]).
      destruct (median_between l (lmin l - 1) 0 Hl) as [_ A]; [|exact A]. intros x Hx. split; [pose proof (lmin_le l x Hx); lra|].
      apply in_map_iff in Hx. destruct Hx as [y [<- Hy]]. rewrite <- log10_1. apply log10_lt; [apply Hp, Hy|apply H1, Hy]. }
    rewrite sizes_run by lra. eexists. split; [reflexivity|]. split; [|apply B]. unfold l. rewrite map_map. split; [apply map_length|]. intros i j Hi Hj Hij.
    unfold vget at 1 2. rewrite !vget_map_in by assumption. apply size_anti; [assumption|assumption|]. apply log10_le; [|exact Hij]. apply Hp, nth_In, Hi.
Qed.
(** A median weight of exactly one on the logarithmic scale. *)
Lemma carpet_zero : forall sorter n w q, iqrange sorter w true None = Ok q -> 1 < q -> median_of (map log10 w) 0 ->
  exists s, carpet_sizes sorter n w = Ok s /\ length s = length w
  /\ forall k, (k < length w)%nat -> 0 < vget w k ->
     (1 < vget w k -> nth k s NaN = Fin 100) /\ (vget w k < 1 -> nth k s NaN = Fin 5) /\ (vget w k = 1 -> nth k s (Fin 0) = NaN).
Proof.
  intros sorter n w q Eq Hq Hm0. pose proof (median_unique _ _ _ (np_median_is _) Hm0) as Hm. unfold carpet_sizes, carpet_weights. rewrite Eq. cbn [bind]. destruct (Rltb_spec 1 q); [|lra]. rewrite Hm.
  eexists. split; [reflexivity|]. rewrite !map_length. split; [reflexivity|]. intros k Hk Hp. rewrite !map_map.
  rewrite !vget_map_in by exact Hk. unfold fdiv. destruct (Reqb_spec 0 0); [|lra].
  split; [|split]; intros H.
  - assert (0 < log10 (vget w k)) by (rewrite <- log10_1; apply log10_lt; lra). destruct (Reqb_spec (log10 (vget w k)) 0); [lra|].
    destruct (Rltb_spec 0 (log10 (vget w k))); [reflexivity|lra].
  - assert (log10 (vget w k) < 0) by (rewrite <- log10_1; apply log10_lt; lra). destruct (Reqb_spec (log10 (vget w k)) 0); [lra|].
    destruct (Rltb_spec 0 (log10 (vget w k))); [lra|reflexivity].
  - rewrite H, log10_1. destruct (Reqb_spec 0 0); [reflexivity|lra].
Qed.

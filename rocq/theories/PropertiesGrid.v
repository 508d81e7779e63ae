(** Properties C26, C30-C33, C50, C70: grids, histograms, the cumulative distribution and the caches of KDE. *)
From Coq Require Import ZArith.
From Verif Require Import Base ModelLinAlg SpecLinAlg ModelKernels SpecKernels ModelKDE ModelExtrema ModelInterp ModelResample ModelUtils ModelNd ModelGrid ModelState
  SpecUtils SpecKDE SpecNd SpecGrid ProofLinAlg ProofKDE ProofExamples ProofTop3 ProofUtils ProofNd ProofNd2 ProofGrid ProofGrid2 ProofCdf ProofGrid3 ProofState.
Open Scope R_scope.
Notation length := List.length.

(** * C26 *)
Theorem C26_grid_pointwise : forall K (prob : bool) refl p points f, kde_density K prob (length points) refl p = Ok f ->
  exists a, density_grid K prob refl p points = Ok a /\ shp a = map (@List.length R) points
  /\ forall idx, inb (shp a) idx -> at_ a idx = f (fun d => nth (nth d idx 0%nat) (nth d points []) 0).
Proof. exact density_grid_pointwise. Qed.
Print Assumptions C26_grid_pointwise.

(** Errors are those of the evaluation at single points. *)
Theorem C26_grid_error : forall K (prob : bool) refl p points e, kde_density K prob (length points) refl p = Err e -> density_grid K prob refl p points = Err e.
Proof. exact density_grid_error. Qed.
Print Assumptions C26_grid_error.

Example C26_example : exists K f, kde_init 2 data2 WNone BwNone false None Gaussian None None None = Ok K
  /\ kde_density K false (length [[0; 1; 2]; [5; 6]]) None PNone = Ok f.
Proof.
  destruct (data2_built Gaussian None) as [K [M [N [H1 [H2 _]]]]]. exists K. destruct (density_refl_exists_none 2 data2 [1; 1; 1] Gaussian M K false H2 (le_S _ _ (le_n 1))) as [f Hf]. eauto.
Qed.

(** * C30 *)
(** Any number of dimensions: data points and weights, in the order of the flattened histogram. *)
Theorem C30_from_hist : forall bins hs hist bw diag resc d cova neffa refl K, good_bins bins hs -> shp hist = map (fun b => (List.length b - 1)%nat) bins ->
  (forall idx, inb (shp hist) idx -> 0 <= at_ hist idx) -> 0 < sumf (at_ hist) (all_idx (shp hist)) ->
  from_hist_nd bins hist bw diag resc d cova neffa refl = Ok K ->
  exists ws, kd_weights K = Some ws /\ length ws = length (kd_data K)
  /\ combine (kd_data K) ws = map (fun idx => (bin_center bins idx, at_ hist idx / (sumf (at_ hist) (all_idx (shp hist)) * product hs))) (all_idx (shp hist))
  /\ lsum ws * product hs = 1.
Proof. exact from_hist_nd_data. Qed.
Print Assumptions C30_from_hist.

(** By default the bandwidths are the bin widths (two or more dimensions). *)
Theorem C30_default_bandwidth : forall bins hs hist diag resc d cova neffa refl, good_bins bins hs -> (2 <= length bins)%nat -> shp hist = map (fun b => (List.length b - 1)%nat) bins ->
  (forall idx, inb (shp hist) idx -> 0 <= at_ hist idx) -> 0 < sumf (at_ hist) (all_idx (shp hist)) ->
  exists K, from_hist_nd bins hist None diag resc d cova neffa refl = Ok K
  /\ from_hist_nd bins hist (Some (BwSeq (map BNum hs))) diag resc d cova neffa refl = Ok K.
Proof. exact from_hist_nd_default. Qed.
Print Assumptions C30_default_bandwidth.

(** One vector of bins. *)
Theorem C30_from_hist_1d : forall b h hist bw diag resc d cova neffa refl K, (3 <= length b)%nat -> uniform_step b h -> 0 < h -> length hist = (length b - 1)%nat ->
  (forall x, In x hist -> 0 <= x) -> 0 < lsum hist ->
  from_hist_1d b hist bw diag resc d cova neffa refl = Ok K ->
  exists ws, kd_weights K = Some ws /\ length (kd_data K) = length hist /\ length ws = length hist
  /\ (forall i, (i < length hist)%nat -> nth i (kd_data K) (fun _ => 0) 0%nat = (nth i b 0 + nth (S i) b 0) / 2 /\ nth i ws 0 = nth i hist 0 / (lsum hist * h))
  /\ lsum ws * h = 1.
Proof. exact from_hist_1d_data. Qed.
Print Assumptions C30_from_hist_1d.

Theorem C30_default_bandwidth_1d : forall b h hist diag resc d cova neffa refl, (3 <= length b)%nat -> uniform_step b h -> 0 < h -> length hist = (length b - 1)%nat ->
  (forall x, In x hist -> 0 <= x) -> 0 < lsum hist ->
  exists K, from_hist_1d b hist None diag resc d cova neffa refl = Ok K /\ from_hist_1d b hist (Some (BwAtom (BNum h))) diag resc d cova neffa refl = Ok K.
Proof. exact from_hist_1d_default. Qed.
Print Assumptions C30_default_bandwidth_1d.

(** A list of one vector of bins with the default bandwidth is an error. *)
Theorem C30_listed_1d_fails : forall b h hist diag resc d cova neffa refl, (3 <= length b)%nat -> uniform_step b h -> 0 < h -> shp hist = [(List.length b - 1)%nat] ->
  (forall idx, inb (shp hist) idx -> 0 <= at_ hist idx) -> 0 < sumf (at_ hist) (all_idx (shp hist)) ->
  from_hist_nd [b] hist None diag resc d cova neffa refl = Err ValueError.
Proof. exact from_hist_listed_1d. Qed.
Print Assumptions C30_listed_1d_fails.

Example C30_example : exists K ws, from_hist_nd [[0; 1; 2]; [0; 2; 4; 6]] (mkA [2; 3]%nat (fun idx => INR (nth 1 idx 0%nat))) None false None Gaussian None None None = Ok K
  /\ kd_weights K = Some ws /\ length ws = 6%nat.
Proof.
  assert (HG : good_bins [[0; 1; 2]; [0; 2; 4; 6]] [1; 2]).
  { repeat constructor; cbn; try lia; try lra; intros i Hi; cbn in Hi; destruct i as [|[|[|]]]; cbn; try lia; lra. }
  assert (Hp : forall idx, inb [2; 3]%nat idx -> 0 <= INR (nth 1 idx 0%nat)) by (intros; apply pos_INR).
  assert (Hs : 0 < sumf (fun idx => INR (nth 1 idx 0%nat)) (all_idx [2; 3]%nat)) by (cbn; lra).
  destruct (C30_default_bandwidth _ _ (mkA [2; 3]%nat (fun idx => INR (nth 1 idx 0%nat))) false None Gaussian None None None HG (le_n 2) eq_refl Hp Hs) as [K [HK _]].
  destruct (C30_from_hist _ _ (mkA [2; 3]%nat (fun idx => INR (nth 1 idx 0%nat))) _ _ _ _ _ _ _ _ HG eq_refl Hp Hs HK) as [ws [H1 [H2 [H3 _]]]]. exists K, ws. split; [exact HK|]. split; [exact H1|].
  apply (f_equal (@List.length _)) in H3. rewrite combine_length, map_length, <- H2, Nat.min_id in H3. exact H3.
Qed.

(** * C31 *)
(** Points inside their bins for any edges: false. *)
Theorem C31_points_in_bins_refuted : exists bins hist K i, incr_list bins /\ length hist = (length bins - 1)%nat /\ (forall x, In x hist -> 0 < x)
  /\ from_hist_1d bins hist None false None Gaussian None None None = Ok K /\ (S i < length bins)%nat
  /\ ~ (nth i bins 0 <= nth i (kd_data K) (fun _ => 0) 0%nat <= nth (S i) bins 0).
Proof. exact from_hist_outside_bins. Qed.
Print Assumptions C31_points_in_bins_refuted.

(** What holds for any edges. *)
Theorem C31_points : forall b hist bw diag resc d cova neffa refl K, from_hist_1d b hist bw diag resc d cova neffa refl = Ok K ->
  length (kd_data K) = (length b - 1)%nat /\ forall i, (S i < length b)%nat -> nth i (kd_data K) (fun _ => 0) 0%nat = nth i b 0 + (nth 2 b 0 - nth 1 b 0) / 2.
Proof. exact from_hist_1d_points. Qed.
Print Assumptions C31_points.

Theorem C31_too_few_edges : forall bins hist bw diag resc d cova neffa refl, (length bins < 3)%nat -> from_hist_1d bins hist bw diag resc d cova neffa refl = Err IndexError.
Proof. exact from_hist_short_1d. Qed.
Print Assumptions C31_too_few_edges.

Theorem C31_too_few_edges_nd : forall bins hist bw diag resc d cova neffa refl, (exists b, In b bins /\ (length b < 3)%nat) -> from_hist_nd bins hist bw diag resc d cova neffa refl = Err IndexError.
Proof. exact from_hist_short_nd. Qed.
Print Assumptions C31_too_few_edges_nd.

Example C31_example : exists b, In b [[0; 1; 2]; [0; 2]] /\ (length b < 3)%nat.
Proof. exists [0; 2]. split; [right; left; reflexivity|cbn; lia]. Qed.

(** * C32 *)
(** Value at the nodes, range, monotonicity, lower faces and upper corner. *)
Theorem C32_cdf_on_grid : forall n data w b diag resc d cova neffa refl K grid f, kde_init n data w b diag resc d cova neffa refl = Ok K ->
  is_grid grid -> kde_density K true (length grid) None PNone = Ok f -> 0 < trapezoids grid (fun idx => f (grid_point grid idx)) ->
  exists c, (forall x, length x = length grid -> kde_cdf K grid false false x = Ok (Fin (c x)))
  /\ (forall idx, inb (map (@List.length R) grid) idx ->
        c (node grid idx) = trapezoids (cut_edges grid idx) (fun i => f (grid_point grid i)) / trapezoids grid (fun i => f (grid_point grid i)))
  /\ (forall x, in_grid grid x -> 0 <= c x <= 1)
  /\ (forall x y, in_grid grid x -> in_grid grid y -> Forall2 Rle x y -> c x <= c y)
  /\ (forall x k, in_grid grid x -> (k < length grid)%nat -> nth k x 0 = nth 0 (nth k grid []) 0 -> c x = 0)
  /\ c (map (fun g => nth (List.length g - 1) g 0) grid) = 1.
Proof. exact cdf_on_grid_init. Qed.
Print Assumptions C32_cdf_on_grid.

(** With a Gaussian kernel the mass is always positive. *)
Theorem C32_cdf_gaussian : forall n data ws M K grid, (1 <= n)%nat -> built_kde n data ws Gaussian M None K -> is_grid grid -> length grid = n ->
  exists c, (forall x, length x = n -> kde_cdf K grid false false x = Ok (Fin (c x)))
  /\ (forall x, in_grid grid x -> 0 <= c x <= 1)
  /\ (forall x y, in_grid grid x -> in_grid grid y -> Forall2 Rle x y -> c x <= c y)
  /\ (forall x k, in_grid grid x -> (k < n)%nat -> nth k x 0 = nth 0 (nth k grid []) 0 -> c x = 0)
  /\ c (map (fun g => nth (List.length g - 1) g 0) grid) = 1.
Proof. exact cdf_gaussian. Qed.
Print Assumptions C32_cdf_gaussian.

Theorem C32_not_implemented : forall K grid pg rg x, pg = true \/ rg = true -> kde_cdf K grid pg rg x = Err NotImplementedError.
Proof. exact cdf_not_implemented. Qed.
Print Assumptions C32_not_implemented.

Example C32_example : exists K, kde_init 1 [p0; p1] (WArr (map Fin [3; 1])) (BwAtom (BNum 1)) false None Gaussian (Some ident) None None = Ok K
  /\ built_kde 1 [p0; p1] [3; 1] Gaussian ident None K /\ is_grid [[0; 1; 3]] /\ in_grid [[0; 1; 3]] [2].
Proof.
  destruct (unit_kde 1 [p0; p1] [3; 1] Gaussian None) as [K [HK [HB _]]]; [discriminate|reflexivity| | |].
  - intros v [<-|[<-|[]]]; lra.
  - exists 3. split; [left; reflexivity|lra].
  - exists K. split; [exact HK|]. split; [exact HB|]. split.
    + intros g [<-|[]]. split; [cbn; lia|]. intros i j Hij. cbn in Hij. destruct j as [|[|[|]]]; destruct i as [|[|[|]]]; cbn; try lia; lra.
    + repeat constructor; cbn; lra.
Qed.

(** * C33 *)
(** Beyond the last (before the first) grid point the value is always above one (below zero) if the neighbouring interval has mass. *)
Theorem C33_outside_grid : forall K g f, is_grid [g] -> kde_density K true 1 None PNone = Ok f -> (forall x, 0 <= f x) -> 0 < trapezoid g (fun i => f (grid_point [g] [i])) ->
  (0 < f (grid_point [g] [(List.length g - 2)%nat]) + f (grid_point [g] [(List.length g - 1)%nat]) ->
     forall x, nth (List.length g - 1) g 0 < x -> exists v, kde_cdf K [g] false false [x] = Ok (Fin v) /\ 1 < v)
  /\ (0 < f (grid_point [g] [0%nat]) + f (grid_point [g] [1%nat]) ->
     forall x, x < nth 0 g 0 -> exists v, kde_cdf K [g] false false [x] = Ok (Fin v) /\ v < 0).
Proof. exact cdf_outside. Qed.
Print Assumptions C33_outside_grid.

Theorem C33_outside_grid_gaussian : forall data ws M K g x, built_kde 1 data ws Gaussian M None K -> is_grid [g] ->
  (nth (List.length g - 1) g 0 < x -> exists v, kde_cdf K [g] false false [x] = Ok (Fin v) /\ 1 < v)
  /\ (x < nth 0 g 0 -> exists v, kde_cdf K [g] false false [x] = Ok (Fin v) /\ v < 0).
Proof. exact cdf_outside_gaussian. Qed.
Print Assumptions C33_outside_grid_gaussian.

Theorem C33_cdf_bounded_refuted : exists K x v, kde_init 1 [p0; p1] (WArr (map Fin [3; 1])) (BwAtom (BNum 1)) false None Gaussian (Some ident) None None = Ok K
  /\ kde_cdf K [[0; 1; 3]] false false [x] = Ok (Fin v) /\ ~ (0 <= v <= 1).
Proof. exact cdf_bounded_refuted. Qed.
Print Assumptions C33_cdf_bounded_refuted.

(** * C50 *)
(** Each dimension: automatic, by number of bins, or given. *)
Theorem C50_points : forall sorter n data w b diag resc d cova neffa refl K bw ext edges, (1 <= n)%nat ->
  kde_init n data w b diag resc d cova neffa refl = Ok K -> length ext = n -> (forall p, In p ext -> fst p < snd p) ->
  (match edges with EdAll e => edges_usable e | EdEach l => length l = n /\ forall e, In e l -> edges_usable e end) ->
  exists pts, kde_points sorter K bw ext edges = Ok pts /\ length pts = n
  /\ forall i, (i < n)%nat -> edges_meaning (match edges with EdAll e => e | EdEach l => nth i l EdAuto end) (fst (nth i ext (0, 0))) (snd (nth i ext (0, 0))) (nth i pts []).
Proof. exact points_grid. Qed.
Print Assumptions C50_points.

Theorem C50_wrong_count : forall sorter K bw ext l, ext <> [] -> length ext = kd_ndim K -> length l <> kd_ndim K -> kde_points sorter K bw ext (EdEach l) = Err ValueError.
Proof. exact points_count_wrong. Qed.
Print Assumptions C50_wrong_count.

(** Any accesses after any calls give the same grid. *)
Theorem C50_repeated_access : forall o cs i j a b, nth_error cs i = Some CallPoints -> nth_error cs j = Some CallPoints ->
  nth_error (history o (ostate0 o) cs) i = Some a -> nth_error (history o (ostate0 o) cs) j = Some b -> a = b.
Proof. exact points_repeated. Qed.
Print Assumptions C50_repeated_access.

Example C50_example : exists K, kde_init 1 [p0; p1] (WArr (map Fin [3; 1])) (BwAtom (BNum 1)) false None Gaussian (Some ident) None None = Ok K
  /\ (forall p, In p [(Ropp 2, 3)] -> fst p < snd p).
Proof.
  destruct (unit_kde 1 [p0; p1] [3; 1] Gaussian None) as [K [HK _]]; [discriminate|reflexivity| | |].
  - intros v [<-|[<-|[]]]; lra.
  - exists 3. split; [left; reflexivity|lra].
  - exists K. split; [exact HK|]. intros p [<-|[]]. cbn. lra.
Qed.

(** * C70 *)
(** Densities of one kernel, in any sequence of calls. *)
Theorem C70_kernel_caches : forall K l, khistory K kcache0 l = map (fun a => fst (kcall K kcache0 a)) l
  /\ khistory K kcache0 l = map (fun a : kargs => let '(pdim, ddim, data, w, refl, ps) := a in kernel_density K pdim ddim data w refl ps) l.
Proof. exact kernel_cache_history. Qed.
Print Assumptions C70_kernel_caches.

(** Any sequence of calls on one KDE: each answer is that of a new object. *)
Theorem C70_history : forall o cs, history o (ostate0 o) cs = map (fun c => fst (step o (ostate0 o) c)) cs.
Proof. exact history_fresh_object. Qed.
Print Assumptions C70_history.

(** and that is the value computed without any caches. *)
Theorem C70_history_values : forall o cs i a, nth_error (history o (ostate0 o) cs) i = Some a ->
  match nth_error cs i with
  | Some CallPoints => a = APoints (kde_points (ob_sorter o) (ob_kde o) (ob_bw o) (ob_ext o) (ob_edges o))
  | Some (CallDensity prob pdim refl p) => a = ADensity (kde_density (ob_kde o) prob pdim refl p)
  | Some (CallCdf pg rg x) => a = ACdf (if pg then Err NotImplementedError else if rg then Err NotImplementedError else
      do g <- kde_points (ob_sorter o) (ob_kde o) (ob_bw o) (ob_ext o) (ob_edges o) ;; kde_cdf (ob_kde o) g false false x)
  | None => False
  end.
Proof. exact history_values. Qed.
Print Assumptions C70_history_values.

Example C70_example : forall o x, history o (ostate0 o) [CallCdf false false x; CallPoints; CallDensity true 1 None (PInt 0); CallCdf false false x]
  = map (fun c => fst (step o (ostate0 o) c)) [CallCdf false false x; CallPoints; CallDensity true 1 None (PInt 0); CallCdf false false x].
Proof. intros. apply C70_history. Qed.


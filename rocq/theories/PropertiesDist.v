(** Properties C92-C102: dist1d, dist2d, carpet. *)
From Coq Require Import String ZArith.
From Verif Require Import Base ModelLinAlg SpecLinAlg SpecIntegral ModelKernels ModelKDE SpecKDE ModelReflect ModelExtrema ModelInterp ModelResample ModelUtils ModelNd ModelGrid
  ModelSample ModelApi ModelPlot ModelDist SpecUtils SpecNd SpecPlot SpecApi SpecDist ProofExtrema ProofUtils ProofUtils2 ProofKDE ProofExamples ProofTop2 ProofTop3
  ProofDist ProofDist2 ProofDist3 ProofDist4.
Open Scope R_scope.
Notation length := List.length.

(** * C92 *)
(** A KDE drawn at given edges covering the data: the curve integrates to, and the bars enclose, the same total (1 as a probability, else the total weight). *)
Theorem C92_curve_and_bars : forall sorter auto pts sel n data ws d M K flat p es (prob : bool) param dens carpet qs,
  built_kde n data ws d M None K -> (param < n)%nat -> covers es (coords param data) -> curve_arg true dens -> limit_accepted carpet ->
  exists dr g h, dist1d sorter auto pts sel (S1Kde K flat p) (EdVec es) None prob param dens false (Some true) carpet qs = Ok dr
  /\ kde_density K prob 1 None (PInt param) = Ok g
  /\ d1_curve dr = Some (es, map (fun x => g (line_pt x)) es) /\ is_tint (fun x => g (line_pt x)) (mass prob ws)
  /\ d1_hist dr = Some (h, es) /\ bar_area h es = mass prob ws.
Proof. exact dist1d_totals. Qed.
Print Assumptions C92_curve_and_bars.

(** The same for numbers with weights ... *)
Theorem C92_from_data : forall sorter auto pts sel data wo es (prob : bool) hist carpet qs,
  length (the_weights data wo) = length data -> (forall v, In v (the_weights data wo) -> 0 <= v) ->
  two_values data (the_weights data wo) -> covers es data -> bars_drawn false hist -> limit_accepted carpet ->
  exists dr g h, dist1d sorter auto pts sel (S1Data true data) (EdVec es) wo prob 0 DaTrue false hist carpet qs = Ok dr
  /\ d1_curve dr = Some (es, map g es) /\ is_tint g (mass prob (the_weights data wo))
  /\ d1_hist dr = Some (h, es) /\ bar_area h es = mass prob (the_weights data wo).
Proof. exact dist1d_data_totals. Qed.
Print Assumptions C92_from_data.

(** ... which are drawn like the KDE made from them. *)
Theorem C92_data_as_kde : forall sorter auto pts sel data wo K edges (prob : bool) dens confid h carpet qs,
  kde_of_vector data wo = Ok K -> kd_data K = as_points data -> kd_ndim K = 1%nat -> kd_weights K = wo ->
  dens_factor false dens <> None ->
  dist1d sorter auto pts sel (S1Data true data) edges wo prob 0 dens confid (Some h) carpet qs
  = dist1d sorter auto pts sel (S1Kde K true (pts K)) edges None prob 0 dens confid (Some h) carpet qs.
Proof. exact dist1d_data_as_kde. Qed.
Print Assumptions C92_data_as_kde.

(** The bars alone, for a number of bins ... *)
Theorem C92_bars_number : forall auto data isarr n wo (prob : bool),
  data <> [] -> (1 <= n)%nat -> length (the_weights data wo) = length data -> lsum (the_weights data wo) <> 0 -> isarr = true \/ wo <> None \/ prob = false ->
  exists h es, hist1d auto data isarr (EdNum n) wo true prob = Ok (h, es) /\ length es = S n /\ covers es data /\ bar_area h es = mass prob (the_weights data wo).
Proof. exact hist1d_bins. Qed.
Print Assumptions C92_bars_number.

(** ... which are equal bins between the extrema of the data, of total width one around equal data, and from 0 to 1 without data ... *)
Theorem C92_bins_where : forall auto data isarr n wo (dens prob : bool) h es, hist1d auto data isarr (EdNum n) wo dens prob = Ok (h, es) ->
  length es = S n /\ exists a b, (forall i, (i <= n)%nat -> nth i es 0 = a + INR i * (b - a) / INR n)
  /\ (data = [] -> a = 0 /\ b = 1)
  /\ (forall lo hi, In lo data -> In hi data -> (forall x, In x data -> lo <= x <= hi) -> (lo < hi -> a = lo /\ b = hi) /\ (lo = hi -> a = lo - 1 / 2 /\ b = lo + 1 / 2)).
Proof. exact bins_spread. Qed.
Print Assumptions C92_bins_where.

(** ... in which case they are all empty ... *)
Theorem C92_bins_empty : forall auto isarr n (dens : bool), (1 <= n)%nat -> exists es, hist1d auto [] isarr (EdNum n) None dens false = Ok (repeat 0 n, es).
Proof. exact bins_empty. Qed.
Print Assumptions C92_bins_empty.

(** ... and for given edges. *)
Theorem C92_bars_edges : forall auto data isarr es wo (prob : bool),
  covers es data -> length (the_weights data wo) = length data -> lsum (the_weights data wo) <> 0 -> isarr = true \/ wo <> None \/ prob = false ->
  exists h, hist1d auto data isarr (EdVec es) wo true prob = Ok (h, es) /\ bar_area h es = mass prob (the_weights data wo).
Proof. exact hist1d_vector. Qed.
Print Assumptions C92_bars_edges.

(** The density of selected parameters has the same total, for every kernel. *)
Theorem C92_params_total : forall n data ws d M K (prob : bool) ps base, built_kde n data ws d M None K -> n <> 1%nat -> NoDup ps -> ps <> [] ->
  (forall q, In q ps -> (q < n)%nat) ->
  exists g, kde_density K prob (length ps) None (PList ps) = Ok g /\ is_tintN (length ps) g base (mass prob ws).
Proof. exact params_integral. Qed.
Print Assumptions C92_params_total.

(** Weights together with a KDE: ValueError; so is anything that is neither a KDE nor a vector. *)
Theorem C92_kde_weights : forall sorter auto pts sel K flat p edges w (prob : bool) param dens confid hist carpet qs,
  dist1d sorter auto pts sel (S1Kde K flat p) edges (Some w) prob param dens confid hist carpet qs = Err ValueError.
Proof. exact dist1d_kde_weights. Qed.
Print Assumptions C92_kde_weights.

(** ... the latter. *)
Theorem C92_other : forall sorter auto pts sel edges wo (prob : bool) param dens confid hist carpet qs,
  dist1d sorter auto pts sel S1Other edges wo prob param dens confid hist carpet qs = Err ValueError.
Proof. exact dist1d_other. Qed.
Print Assumptions C92_other.

(** The carpet: none, all the numbers, or at most the number asked for. *)
Theorem C92_carpet : forall sorter auto pts sel src edges wo (prob : bool) param dens confid hist carpet qs dr,
  dist1d sorter auto pts sel src edges wo prob param dens confid hist carpet qs = Ok dr ->
  exists data, (match src with S1Kde K _ _ => (param < kd_ndim K)%nat /\ data = coords param (kd_data K) | S1Data _ l => data = l | S1Other => False end)
  /\ ((carpet = NaNone \/ carpet = NaFalse) -> d1_carpet dr = None)
  /\ (carpet = NaTrue -> d1_carpet dr = Some data)
  /\ (forall r, carpet = NaNum r -> 1 <= r /\ exists l, d1_carpet dr = Some l
        /\ (INR (length data) <= r -> l = data)
        /\ (r < INR (length data) -> exists k, INR k <= r < INR k + 1 /\ l = map (fun i => nth i data 0) (sel (length data) k))).
Proof. exact dist1d_carpet. Qed.
Print Assumptions C92_carpet.

Example C92_example : two_values [0; 1; 1] [1; 2; 0] /\ covers [-1; 1 / 2; 2] [0; 1; 1] /\ bars_drawn false None /\ curve_arg true DaNone /\ limit_accepted NaNone
  /\ (exists K, kde_of_vector [0; 1; 1] (Some [1; 2; 0]) = Ok K /\ kd_data K = as_points [0; 1; 1] /\ kd_ndim K = 1%nat /\ kd_weights K = Some [1; 2; 0])
  /\ exists K M, built_kde 2 data2 [1; 1; 1] Triweight M None K /\ covers [-1; 1 / 2; 2] (coords 1 data2).
Proof.
  assert (IN : incr_list [-1; 1 / 2; 2]) by (intros i j Hi Hj; cbn in Hj; destruct i as [|[|[|i]]], j as [|[|[|j]]]; try lia; cbn; lra).
  assert (TV : two_values [0; 1; 1] [1; 2; 0]) by (exists 0%nat, 1%nat; unfold vget; cbn; repeat split; try lia; lra).
  split; [exact TV|]. split; [split; [cbn; lia|split; [exact IN|]]; intros x [<-|[<-|[<-|[]]]]; unfold vget; cbn; lra|].
  split; [right; split; reflexivity|]. split; [right; split; reflexivity|]. split; [exact I|]. split.
  - destruct (vector_kde [0; 1; 1] (Some [1; 2; 0])) as (K & M & HK & HB & HW); [discriminate|reflexivity| |exact TV|].
    + intros v [<-|[<-|[<-|[]]]]; lra.
    + exists K. destruct (built_inv _ _ _ _ _ _ _ HB) as (En & Ed & _). repeat split; assumption.
  - destruct (data2_built Triweight None) as [K [M [N [_ [HB _]]]]]. exists K, M. split; [exact HB|]. split; [cbn; lia|]. split; [exact IN|].
    intros x [<-|[<-|[<-|[]]]]; unfold vget, q00, q10, q01; cbn; lra.
Qed.

(** * C93 *)
(** hist1d with weights and edges left to be chosen: always a TypeError. *)
Theorem C93_hist1d : forall auto data isarr w (dens prob : bool), hist1d auto data isarr EdAuto (Some w) dens prob = Err TypeError.
Proof. exact hist1d_auto_weights. Qed.
Print Assumptions C93_hist1d.

(** dist1d of numbers with weights, the histogram drawn: never succeeds; without the curve it is that TypeError. *)
Theorem C93_dist1d : forall sorter auto pts sel isarr data w (prob : bool) param dens confid hist carpet qs,
  bars_drawn false hist ->
  (forall dr, dist1d sorter auto pts sel (S1Data isarr data) EdAuto (Some w) prob param dens confid hist carpet qs <> Ok dr)
  /\ (dens = DaNone \/ dens = DaFalse -> limit_accepted carpet ->
      dist1d sorter auto pts sel (S1Data isarr data) EdAuto (Some w) prob param dens confid hist carpet qs = Err TypeError).
Proof. exact dist1d_auto_weights. Qed.
Print Assumptions C93_dist1d.

(** Neither does a KDE with weights when the histogram is asked for. *)
Theorem C93_weighted_kde : forall sorter auto pts sel K flat p w (prob : bool) param dens confid carpet qs,
  kd_weights K = Some w ->
  forall dr, dist1d sorter auto pts sel (S1Kde K flat p) EdAuto None prob param dens confid (Some true) carpet qs <> Ok dr.
Proof. exact dist1d_auto_weights_kde. Qed.
Print Assumptions C93_weighted_kde.

Example C93_example : bars_drawn false None /\ bars_drawn true (Some true) /\ limit_accepted (NaNum 5)
  /\ exists K, kde_of_vector [0; 1] (Some [1; 2]) = Ok K /\ kd_weights K = Some [1; 2].
Proof.
  split; [right; split; reflexivity|]. split; [left; reflexivity|]. split; [cbn; lra|].
  destruct (vector_kde [0; 1] (Some [1; 2])) as (K & M & HK & _ & HW); [discriminate|reflexivity|intros v [<-|[<-|[]]]; lra| |exists K; split; assumption].
  exists 0%nat, 1%nat. unfold vget; cbn; repeat split; try lia; lra.
Qed.

(** * C94 *)
(** A number of bins with the curve of a KDE: the number is taken as a position, so the curve is the single point there; with more than one parameter it is a TypeError. *)
Theorem C94_number_of_bins : forall sorter auto pts sel n data ws d M K flat p nb (prob : bool) param dens r hist carpet qs,
  built_kde n data ws d M None K -> (param < n)%nat -> curve_factor true dens r -> limit_accepted carpet -> hist = None \/ hist = Some false ->
  (n = 1%nat -> exists dr g, dist1d sorter auto pts sel (S1Kde K flat p) (EdNum nb) None prob param dens false hist carpet qs = Ok dr
     /\ kde_density K prob 1 None (PInt param) = Ok g /\ d1_curve dr = Some ([INR nb], [g (line_pt (INR nb)) * r]))
  /\ (n <> 1%nat -> dist1d sorter auto pts sel (S1Kde K flat p) (EdNum nb) None prob param dens false hist carpet qs = Err TypeError).
Proof. exact dist1d_bins_curve. Qed.
Print Assumptions C94_number_of_bins.

Example C94_example : built_kde 1 [origin] [1] Gaussian ident None (k12 Gaussian 1 None) /\ curve_factor true (DaNum 2) 2 /\ curve_factor true DaNone 1
  /\ exists K M, built_kde 2 data2 [1; 1; 1] Gaussian M None K.
Proof.
  split; [apply k12_built|]. split; [left; reflexivity|]. split; [right; split; [right; split; reflexivity|reflexivity]|].
  destruct (data2_built Gaussian None) as [K [M [N [_ [HB _]]]]]. exists K, M. exact HB.
Qed.

(** * C95 *)
(** A list of numbers, without weights, as probability, the histogram drawn: never succeeds; without the curve an AttributeError. *)
Theorem C95_list_data : forall sorter auto pts sel data edges param dens confid hist carpet qs,
  bars_drawn false hist ->
  (forall dr, dist1d sorter auto pts sel (S1Data false data) edges None true param dens confid hist carpet qs <> Ok dr)
  /\ (dens = DaNone \/ dens = DaFalse -> limit_accepted carpet -> data <> [] ->
      match edges with EdVec es => nondecr_list es | EdNum n => (1 <= n)%nat | EdAuto => nondecr_list (auto data) end ->
      dist1d sorter auto pts sel (S1Data false data) edges None true param dens confid hist carpet qs = Err AttributeError).
Proof. exact dist1d_list. Qed.
Print Assumptions C95_list_data.

Example C95_example : bars_drawn false None /\ limit_accepted NaTrue /\ nondecr_list [0; 1; 2]
  /\ dist1d isort (fun _ => [0; 1; 2]) (fun _ => Err ValueError) (fun _ _ => []) (S1Data false [1]) (EdVec [0; 1; 2]) None true 0 DaNone false None NaFalse None = Err AttributeError.
Proof.
  assert (N : nondecr_list [0; 1; 2]) by (intros i j Hi Hj; cbn in Hj; destruct i as [|[|[|i]]], j as [|[|[|j]]]; try lia; cbn; lra).
  split; [right; split; reflexivity|]. split; [exact I|]. split; [exact N|].
  apply (proj2 (dist1d_list isort (fun _ => [0; 1; 2]) (fun _ => Err ValueError) (fun _ _ => []) [1] (EdVec [0; 1; 2]) 0 DaNone false None NaFalse None (or_intror (conj eq_refl eq_refl))));
    [left; reflexivity|exact I|discriminate|exact N].
Qed.

(** * C96 *)
(** density=r: the drawing for density=True with the heights of the curve, and nothing else, multiplied by r; the same errors. *)
Theorem C96_scaled : forall sorter auto pts sel src edges wo (prob : bool) param r confid hist carpet qs,
  dist1d sorter auto pts sel src edges wo prob param (DaNum r) confid hist carpet qs
  = (do dr <- dist1d sorter auto pts sel src edges wo prob param DaTrue confid hist carpet qs ;;
     Ok (mkD1 (option_map (times r) (d1_curve dr)) (d1_hist dr) (d1_bands dr) (d1_carpet dr))).
Proof. exact dist1d_scaled. Qed.
Print Assumptions C96_scaled.

(** density=0 draws a curve, all of it at height zero ... *)
Theorem C96_zero : forall sorter auto pts sel src edges wo (prob : bool) param confid hist carpet qs dr,
  dist1d sorter auto pts sel src edges wo prob param (DaNum 0) confid hist carpet qs = Ok dr ->
  exists xs ys, d1_curve dr = Some (xs, ys) /\ forall y, In y ys -> y = 0.
Proof. exact dist1d_zero. Qed.
Print Assumptions C96_zero.

(** ... only density=False draws none. *)
Theorem C96_false : forall sorter auto pts sel src edges wo (prob : bool) param confid hist carpet qs dr,
  dist1d sorter auto pts sel src edges wo prob param DaFalse confid hist carpet qs = Ok dr -> d1_curve dr = None.
Proof. exact dist1d_no_curve. Qed.
Print Assumptions C96_false.

Example C96_example : exists dr, dist1d isort (fun _ => []) (fun _ => Err ValueError) (fun _ _ => []) (S1Kde (k12 Gaussian 1 None) true (Err ValueError)) (EdVec [0; 1]) None true 0
    (DaNum 0) false (Some true) NaFalse None = Ok dr.
Proof.
  destruct (dist1d_totals isort (fun _ => []) (fun _ => Err ValueError) (fun _ _ => []) 1 [origin] [1] Gaussian ident (k12 Gaussian 1 None) true (Err ValueError) [0; 1] true 0 DaTrue NaFalse None
    (k12_built Gaussian 1 None)) as (dr & g & h & E & Hg & _); [lia| |left; reflexivity|exact I|].
  - split; [cbn; lia|]. split; [intros i j Hi Hj; cbn in Hj; destruct i as [|[|i]], j as [|[|j]]; try lia; cbn; lra|]. intros x [<-|[]]. unfold vget, origin. cbn. lra.
  - rewrite dist1d_scaled, E. eexists. reflexivity.
Qed.

(** * C97 *)
(** A KDE of data in one row, shape (1, N): drawing it at its own points is a ValueError; made from the flat vector it works. *)
Theorem C97_one_row : forall sorter auto pts sel data ws d M K g (prob : bool) dens r hist carpet qs,
  built_kde 1 data ws d M None K -> curve_factor true dens r -> limit_accepted carpet -> hist = None \/ hist = Some false -> length g <> 1%nat ->
  dist1d sorter auto pts sel (S1Kde K false (Ok [g])) EdAuto None prob 0 dens false hist carpet qs = Err ValueError
  /\ exists dr f, dist1d sorter auto pts sel (S1Kde K true (Ok [g])) EdAuto None prob 0 dens false hist carpet qs = Ok dr
     /\ kde_density K prob 1 None (PInt 0) = Ok f /\ d1_curve dr = Some (g, map (fun x => f (line_pt x) * r) g).
Proof. exact dist1d_rows. Qed.
Print Assumptions C97_one_row.

Example C97_example : built_kde 1 [origin] [1] Gaussian ident None (k12 Gaussian 1 None) /\ curve_factor true DaNone 1 /\ length [0; 1; 2] <> 1%nat.
Proof. split; [apply k12_built|]. split; [right; split; [right; split; reflexivity|reflexivity]|discriminate]. Qed.

(** * C98 *)
(** Two parameters of a reflecting KDE with more than two: bins can only be chosen if both have both boundaries, otherwise TypeError ... *)
Theorem C98_three_or_more : forall sorter K r p q e, kd_data K <> [] -> kd_reflect K = Some r -> length r = kd_ndim K -> (2 < kd_ndim K)%nat ->
  (p < kd_ndim K)%nat -> (q < kd_ndim K)%nat -> wants_bins e -> (forall k lo hi, In k [p; q] -> both_ends (nth k r None) lo hi -> lo < hi) ->
  exists rows, dist2d_rows K [p; q] = Ok rows
  /\ (~ (full (nth p r None) /\ full (nth q r None)) -> dist2d_edges sorter K rows [p; q] (EdAll e) = Err TypeError)
  /\ (forall lx hx ly hy, both_ends (nth p r None) lx hx -> both_ends (nth q r None) ly hy ->
      exists ex ey, dist2d_edges sorter K rows [p; q] (EdAll e) = Ok [ex; ey] /\ spans ex lx hx /\ spans ey ly hy).
Proof. exact bins_3d. Qed.
Print Assumptions C98_three_or_more.

(** ... while with two parameters a missing boundary is replaced by the extremum of the data. *)
Theorem C98_two : forall sorter K r params e, kd_data K <> [] -> kd_reflect K = Some r -> length r = 2%nat -> kd_ndim K = 2%nat ->
  (exists k, (k < 2)%nat /\ nth k r None <> None) -> wants_bins e ->
  let fx := filled (nth 0 r None) (coords 0 (kd_data K)) in let fy := filled (nth 1 r None) (coords 1 (kd_data K)) in
  fst fx < snd fx -> fst fy < snd fy ->
  exists rows ex ey, dist2d_rows K params = Ok rows /\ dist2d_edges sorter K rows params (EdAll e) = Ok [ex; ey]
    /\ spans ex (fst fx) (snd fx) /\ spans ey (fst fy) (snd fy).
Proof. exact bins_2d. Qed.
Print Assumptions C98_two.

Example C98_example : let K := k12 Gaussian 3 (Some [Some (Some 0, Some 1); Some (Some 0, None); None]) in
  kd_data K <> [] /\ kd_ndim K = 3%nat /\ wants_bins EdAuto /\ wants_bins (EdNum 5) /\ both_ends (nth 0 [Some (Some 0, Some 1); Some (Some 0, None); None] None) 0 1
  /\ ~ full (nth 1 [Some (Some 0, Some 1); Some (Some 0, None); None] None) /\ ~ full (nth 2 [Some (Some 0, Some 1); Some (Some 0, None); None] None)
  /\ fst (filled (Some (Some (-1), None)) [0; 3]) < snd (filled (Some (Some (-1), None)) [0; 3]).
Proof.
  cbn zeta. split; [discriminate|]. split; [reflexivity|]. split; [exact I|]. split; [cbn; lia|]. split; [reflexivity|].
  split; [intros (lo & hi & H); discriminate H|]. split; [intros (lo & hi & H); discriminate H|].
  cbn [filled fst snd]. pose proof (lmax_ge [0; 3] 3 (or_intror (or_introl eq_refl))). lra.
Qed.

(** * C99 *)
(** mask_below=True in dist2d hides bins that do hold data: what stays visible holds at most the largest quantile of the total. *)
Theorem C99_hidden : forall ex ey data ws quantiles sigmas q, incr_list ex -> incr_list ey -> (forall v, In v ws -> 0 <= v) ->
  let nx := (length ex - 1)%nat in let ny := (length ey - 1)%nat in let value := density2d ex ey data ws in
  (exists i j, (i < nx)%nat /\ (j < ny)%nat /\ 0 < value i j) ->
  largest q (fst (default_quantiles quantiles sigmas)) -> 0 <= q < 1 ->
  exists show m, dist2d_hist ex ey data ws quantiles sigmas MbTrue = Ok show /\ 0 < m
  /\ (forall i j, (i < nx)%nat -> (j < ny)%nat -> show i j = if Rleb (value i j) m then None else Some (value i j))
  /\ (exists i j, (i < nx)%nat /\ (j < ny)%nat /\ 0 < value i j /\ show i j = None)
  /\ sum_drawn nx ny show <= q * sum_all nx ny value
  /\ (forall u, (exists i j, (i < nx)%nat /\ (j < ny)%nat /\ value i j = u) -> u < m ->
      q * sum_all nx ny value < sum_all nx ny (fun i j => if Rltb u (value i j) then value i j else 0) + u).
Proof. exact masked_hist. Qed.
Print Assumptions C99_hidden.

(** The threshold is the lowest contour level. *)
Theorem C99_level : forall a quantiles sigmas q, (forall v, entry a v -> 0 <= v) -> 0 < total_of a -> largest q (fst (default_quantiles quantiles sigmas)) ->
  exists m, dist2d_mask a quantiles sigmas MbTrue = Ok (Some m) /\ level_for a q m.
Proof. exact mask_level. Qed.
Print Assumptions C99_level.

Example C99_example : let ex := [0; 1; 2] in let data := [(1 / 2, 1 / 2); (3 / 2, 3 / 2)] in incr_list ex
  /\ (exists i j, (i < 2)%nat /\ (j < 2)%nat /\ 0 < density2d ex ex data [1; 1] i j) /\ largest (9 / 10) (fst (default_quantiles (Some [1 / 2; 9 / 10]) None)).
Proof.
  cbn zeta. split; [intros i j Hi Hj; cbn in Hj; destruct i as [|[|[|i]]], j as [|[|[|j]]]; try lia; cbn; lra|]. split.
  - exists 0%nat, 0%nat. split; [lia|]. split; [lia|]. unfold density2d, bin_weight2d, in_bin, sumf, vget. cbn.
    repeat match goal with |- context[Rleb ?a ?b] => destruct (Rleb_spec a b); try lra | |- context[Rltb ?a ?b] => destruct (Rltb_spec a b); try lra end; cbn; lra.
  - split; [right; left; reflexivity|]. intros p [<-|[<-|[]]]; lra.
Qed.

(** * C100 *)
(** A KDE of two parameters drawn with params=[1, 0]: the contours have their axes exchanged, the data drawn with them have not. *)
Theorem C100_swapped : forall data ws d M K gx gy, built_kde 2 data ws d M None K ->
  dist2d_rows K [0%nat; 1%nat] = Ok [coords 0 data; coords 1 data] /\ dist2d_rows K [1%nat; 0%nat] = Ok [coords 0 data; coords 1 data]
  /\ exists f a b, kde_density K false 2 None PNone = Ok f
  /\ dist2d_contour K [0%nat; 1%nat] false (Ok [gx; gy]) = Ok (PtRows [gx; gy], a)
  /\ dist2d_contour K [1%nat; 0%nat] false (Ok [gx; gy]) = Ok (PtRows [gy; gx], b)
  /\ forall i j, (i < length gx)%nat -> (j < length gy)%nat ->
     at_ a [i; j] = f (fun d => match d with O => vget gx i | 1%nat => vget gy j | _ => 0 end) /\ at_ b [j; i] = at_ a [i; j].
Proof. exact params_swapped_2d. Qed.
Print Assumptions C100_swapped.

(** With more than two parameters both follow [params]. *)
Theorem C100_chosen : forall n data ws d M K g p q, built_kde n data ws d M None K -> (2 < n)%nat -> (p < n)%nat -> (q < n)%nat -> p <> q ->
  dist2d_rows K [p; q] = Ok [coords p data; coords q data]
  /\ exists a, dist2d_contour K [p; q] false (Ok g) = Ok (PtRows [nth p g []; nth q g []], a).
Proof. exact params_chosen. Qed.
Print Assumptions C100_chosen.

Example C100_example : exists K M, built_kde 2 data2 [1; 1; 1] Gaussian M None K /\ coords 0 data2 <> coords 1 data2
  /\ built_kde 3 [origin] [1] Gaussian ident None (k12 Gaussian 3 None).
Proof.
  destruct (data2_built Gaussian None) as [K [M [N [_ [HB _]]]]]. exists K, M. split; [exact HB|]. split; [|apply k12_built].
  unfold coords, data2, q00, q10, q01. cbn. intros E. injection E as E _. lra.
Qed.

(** * C101 *)
(** Data with weights the constructor refuses (ValueError): RuntimeError from dist2d. *)
Theorem C101_bad_weights : forall rows w, columns rows <> [] -> ~ valid_weights (length (columns rows)) w ->
  snd (kde_call (length rows) (columns rows) (WArr w) RNone default_kw) = Err ValueError /\ dist2d_kde rows (WArr w) = Err RuntimeError.
Proof. exact dist2d_bad_weights. Qed.
Print Assumptions C101_bad_weights.

(** It succeeds exactly when the constructor does, with the same KDE. *)
Theorem C101_good : forall rows w K, snd (kde_call (length rows) (columns rows) w RNone default_kw) = Ok K <-> dist2d_kde rows w = Ok K.
Proof. exact dist2d_good. Qed.
Print Assumptions C101_good.

Example C101_example : columns [[0; 1]; [2; 3]] <> [] /\ ~ valid_weights (length (columns [[0; 1]; [2; 3]])) [Fin 1; Fin (-1)].
Proof.
  split; [discriminate|]. intros (_ & H & _). destruct (H (Fin (-1)) (or_intror (or_introl eq_refl))) as [r [E Hr]]. injection E as <-. lra.
Qed.

(** * C102 *)
(** Sizes between 5 and 100, increasing with the weights, unless the weights spread over more than a decade and are below one: then the heaviest points are the smallest. *)
Theorem C102_order : forall sorter n w, (1 <= n)%nat -> w <> [] -> (forall x, In x w -> 0 < x) ->
  exists q, iqrange sorter w true None = Ok q
  /\ (q <= 1 -> exists s, carpet_sizes sorter n w = Ok (map Fin s) /\ same_order w s /\ forall x, In x s -> 5 <= x <= 100)
  /\ (1 < q -> (forall x, In x w -> 1 < x) -> exists s, carpet_sizes sorter n w = Ok (map Fin s) /\ same_order w s /\ forall x, In x s -> 5 <= x <= 100)
  /\ (1 < q -> (forall x, In x w -> x < 1) -> exists s, carpet_sizes sorter n w = Ok (map Fin s) /\ opposite_order w s /\ forall x, In x s -> 5 <= x <= 100).
Proof. exact carpet_order. Qed.
Print Assumptions C102_order.

(** If their median is one on that scale the sizes are only 5 and 100, and not a number for weights of one. *)
Theorem C102_unit_median : forall sorter n w q, iqrange sorter w true None = Ok q -> 1 < q -> median_of (map log10 w) 0 ->
  exists s, carpet_sizes sorter n w = Ok s /\ length s = length w
  /\ forall k, (k < length w)%nat -> 0 < vget w k ->
     (1 < vget w k -> nth k s NaN = Fin 100) /\ (vget w k < 1 -> nth k s NaN = Fin 5) /\ (vget w k = 1 -> nth k s (Fin 0) = NaN).
Proof. exact carpet_zero. Qed.
Print Assumptions C102_unit_median.

Example C102_example : iqrange isort [/ 100000; / 10] true None = Ok 4 /\ carpet_sizes isort 100 [/ 100000; / 10] = Ok [Fin 50; Fin 10].
Proof.
  assert (L5 : log10 (/ 100000) = -5).
  { unfold log10. rewrite ln_Rinv by lra. replace 100000 with (10 ^ 5) by lra. rewrite ln_pow by lra. cbn [INR]. field. pose proof (ln_increasing 1 10 ltac:(lra) ltac:(lra)) as Z. rewrite ln_1 in Z. lra. }
  assert (L1 : log10 (/ 10) = -1).
  { unfold log10. rewrite ln_Rinv by lra. field. pose proof (ln_increasing 1 10 ltac:(lra) ltac:(lra)) as Z. rewrite ln_1 in Z. lra. }
  assert (Q : iqrange isort [/ 100000; / 10] true None = Ok 4).
  { assert (N : NoDup [-5; -1]) by (constructor; [cbn; intuition lra|constructor; [cbn; tauto|constructor]]).
    assert (A : all_pos [1; 1]) by (intros w [<-|[<-|[]]]; lra).
    pose proof (quantiles_at_value isort [-5; -1] [1; 1] 0 isort_sorts eq_refl A N ltac:(cbn; lia)) as H0.
    pose proof (quantiles_at_value isort [-5; -1] [1; 1] 1 isort_sorts eq_refl A N ltac:(cbn; lia)) as H1. cbv zeta in H0, H1.
    assert (W0 : (weight_below (nth 0 [-5; -1] 0) [-5; -1] [1; 1] + nth 0 [1; 1] 0 / 2) / lsum [1; 1] = 1 / 4).
    { unfold weight_below. cbn. rewrite (proj2 (Rltb_false (-5) (-5))), (proj2 (Rltb_false (-1) (-5))) by lra. lra. }
    assert (W1 : (weight_below (nth 1 [-5; -1] 0) [-5; -1] [1; 1] + nth 1 [1; 1] 0 / 2) / lsum [1; 1] = 3 / 4).
    { unfold weight_below. cbn. rewrite (proj2 (Rltb_true (-5) (-1))), (proj2 (Rltb_false (-1) (-1))) by lra. lra. }
    rewrite W0 in H0. rewrite W1 in H1. clear W0 W1. unfold iqrange. cbn [map]. rewrite L5, L1. unfold quantiles in H0, H1 |- *. cbn [forallb map] in H0, H1 |- *.
    destruct (Rleb_spec 0 (1 / 4)), (Rleb_spec (1 / 4) 1), (Rleb_spec 0 (3 / 4)), (Rleb_spec (3 / 4) 1); try lra. cbn [andb negb length Nat.eqb Nat.ltb Nat.leb] in H0, H1 |- *.
    injection H0 as H0. injection H1 as H1. cbn [bind]. unfold vget. cbn [nth] in H0, H1 |- *.
    match goal with |- Ok (?a - ?b) = _ => assert (Ea : a = -1) by exact H1; assert (Eb : b = -5) by exact H0; rewrite Ea, Eb end. f_equal. lra. }
  split; [exact Q|]. unfold carpet_sizes, carpet_weights. rewrite Q. cbn [bind]. destruct (Rltb_spec 1 4); [|lra]. cbn [map]. rewrite L5, L1.
  assert (Me : np_median [-5; -1] = -3). { unfold np_median, np_sort, vget. cbn. destruct (Rleb_spec (-5) (-1)); [|lra]. cbn. lra. }
  rewrite Me. unfold fdiv. destruct (Reqb_spec (-3) 0); [lra|]. assert (S : sqrt (INR 100) = 10) by (replace (INR 100) with (10 * 10) by (cbn; lra); apply sqrt_square; lra).
  rewrite S. cbn [clip_size]. f_equal. f_equal; [|f_equal]; f_equal; unfold Rmin, Rmax; repeat destruct (Rle_dec _ _); lra.
Qed.
Example C102_median_example : iqrange isort [/ 1000; 1000] true None = Ok 6 /\ 1 < 6 /\ median_of (map log10 [/ 1000; 1000]) 0.
Proof.
  assert (Z : 0 < ln 10) by (pose proof (ln_increasing 1 10 ltac:(lra) ltac:(lra)) as Z; rewrite ln_1 in Z; lra).
  assert (L1 : log10 1000 = 3) by (unfold log10; replace 1000 with (10 ^ 3) by lra; rewrite ln_pow by lra; cbn [INR]; field; lra).
  assert (L5 : log10 (/ 1000) = -3) by (unfold log10 in *; rewrite ln_Rinv by lra; unfold Rdiv in *; lra).
  assert (Q : iqrange isort [/ 1000; 1000] true None = Ok 6).
  { assert (N : NoDup [-3; 3]) by (constructor; [cbn; intuition lra|constructor; [cbn; tauto|constructor]]).
    assert (A : all_pos [1; 1]) by (intros w [<-|[<-|[]]]; lra).
    pose proof (quantiles_at_value isort [-3; 3] [1; 1] 0 isort_sorts eq_refl A N ltac:(cbn; lia)) as H0.
    pose proof (quantiles_at_value isort [-3; 3] [1; 1] 1 isort_sorts eq_refl A N ltac:(cbn; lia)) as H1. cbv zeta in H0, H1.
    assert (W0 : (weight_below (nth 0 [-3; 3] 0) [-3; 3] [1; 1] + nth 0 [1; 1] 0 / 2) / lsum [1; 1] = 1 / 4).
    { unfold weight_below. cbn. rewrite (proj2 (Rltb_false (-3) (-3))), (proj2 (Rltb_false 3 (-3))) by lra. lra. }
    assert (W1 : (weight_below (nth 1 [-3; 3] 0) [-3; 3] [1; 1] + nth 1 [1; 1] 0 / 2) / lsum [1; 1] = 3 / 4).
    { unfold weight_below. cbn. rewrite (proj2 (Rltb_true (-3) 3)), (proj2 (Rltb_false 3 3)) by lra. lra. }
    rewrite W0 in H0. rewrite W1 in H1. clear W0 W1. unfold iqrange. cbn [map]. rewrite L5, L1. unfold quantiles in H0, H1 |- *. cbn [forallb map] in H0, H1 |- *.
    destruct (Rleb_spec 0 (1 / 4)), (Rleb_spec (1 / 4) 1), (Rleb_spec 0 (3 / 4)), (Rleb_spec (3 / 4) 1); try lra. cbn [andb negb length Nat.eqb Nat.ltb Nat.leb] in H0, H1 |- *.
    injection H0 as H0. injection H1 as H1. cbn [bind]. unfold vget. cbn [nth] in H0, H1 |- *.
    match goal with |- Ok (?a - ?b) = _ => assert (Ea : a = 3) by exact H1; assert (Eb : b = -3) by exact H0; rewrite Ea, Eb end. f_equal. lra. }
  split; [exact Q|]. split; [lra|]. cbn [map]. rewrite L5, L1. exists [-3; 3]. split; [apply Permutation.Permutation_refl|]. split; [|cbn; lra].
  intros i j Hij Hj. cbn in Hj. destruct i as [|[|i]], j as [|[|j]]; try lia; cbn; lra.
Qed.



(** Properties C105-C107: points chosen automatically; references to the caller's data. *)
From Verif Require Import Base ModelLinAlg SpecLinAlg SpecIntegral ModelKernels ModelKDE SpecKDE ModelReflect SpecReflect ModelExtrema ModelResample ModelInterp ModelUtils ModelNd ModelGrid ModelState ModelSample ModelApi ModelAlias SpecAlias
  SpecUtils SpecNd SpecGrid SpecApi SpecApi2 ProofKDE ProofReflect1 ProofReflectArg ProofExamples ProofTop2 ProofTop3 ProofGrid3 ProofState ProofApi ProofDist ProofApi2 ProofAlias.
Open Scope R_scope.
Notation length := List.length.

(** * C105 *)
(** No points given, several parameters: the values on the grid of the automatic points, whatever [grid] says. *)
Theorem C105_grid : forall K (prob : bool) refl p ps (grid : bool) g f, selected (kd_ndim K) p ps -> length g = kd_ndim K -> (2 <= length ps)%nat ->
  kde_density K prob (length ps) refl p = Ok f ->
  exists a, density_values K prob refl p grid None false (Ok g) = Ok (PtRows (rows_of g ps), a) /\ grid_of (rows_of g ps) f a.
Proof. exact default_grid. Qed.
Print Assumptions C105_grid.

(** One of several parameters, given by its number: the points of this parameter as a vector. *)
Theorem C105_one : forall K (prob : bool) refl q (grid : bool) g f, (q < kd_ndim K)%nat -> length g = kd_ndim K -> kd_ndim K <> 1%nat -> length (nth q g []) <> 1%nat ->
  kde_density K prob 1 refl (PInt q) = Ok f ->
  exists a, density_values K prob refl (PInt q) grid None false (Ok g) = Ok (PtFlat (nth q g []), a)
  /\ vector_of (length (nth q g [])) (fun j => f (fun d => nth j (nth d [nth q g []] []) 0)) a.
Proof. exact default_one. Qed.
Print Assumptions C105_one.

(** One parameter given in a list: the points as one row. *)
Theorem C105_list : forall K (prob : bool) refl q (grid : bool) g f, (q < kd_ndim K)%nat -> length g = kd_ndim K -> kd_ndim K <> 1%nat ->
  kde_density K prob 1 refl (PList [q]) = Ok f ->
  exists a, density_values K prob refl (PList [q]) grid None false (Ok g) = Ok (PtRows [nth q g []], a)
  /\ vector_of (length (nth q g [])) (fun j => f (fun d => nth j (nth d [nth q g []] []) 0)) a.
Proof. exact default_list. Qed.
Print Assumptions C105_list.

(** One-dimensional data: points as a vector if the data are. *)
Theorem C105_flat : forall K (prob flat : bool) refl p (grid : bool) l f, kd_ndim K = 1%nat -> p = PNone \/ p = PInt 0 ->
  kde_density K prob 1 refl p = Ok f ->
  exists a, density_values K prob refl p grid None flat (Ok [l]) = Ok (if flat then PtFlat l else PtRows [l], a)
  /\ vector_of (length l) (fun j => f (fun d => nth j (nth d [l] []) 0)) a.
Proof. exact default_flat. Qed.
Print Assumptions C105_flat.

Example C105_example : exists K f g a b, built_kde 2 [origin] [1] Gaussian ident None K /\ kde_density K true 2 None PNone = Ok f /\ kde_density K true 1 None (PInt 1) = Ok g
  /\ density_values K true None PNone false None false (Ok [[0; 1]; [0; 1; 2]]) = Ok (PtRows [[0; 1]; [0; 1; 2]], a) /\ shp a = [2; 3]%nat
  /\ density_values K true None (PInt 1) true None false (Ok [[0; 1]; [0; 1; 2]]) = Ok (PtFlat [0; 1; 2], b) /\ shp b = [3%nat].
Proof.
  assert (HB := k12_built Gaussian 2 None). destruct (density_refl_exists_none 2 [origin] [1] Gaussian ident (k12 Gaussian 2 None) true HB (le_S _ _ (le_n 1))) as [f Hf].
  destruct (param_integral 2 [origin] [1] Gaussian ident (k12 Gaussian 2 None) true 1 origin HB (le_n 2)) as [g [Hg _]].
  destruct (default_grid (k12 Gaussian 2 None) true None PNone [0; 1]%nat false [[0; 1]; [0; 1; 2]] f eq_refl eq_refl (le_n 2) Hf) as (a & Ea & Sa & _).
  destruct (default_one (k12 Gaussian 2 None) true None 1 true [[0; 1]; [0; 1; 2]] g (le_n 2) eq_refl ltac:(discriminate) ltac:(discriminate) Hg) as (b & Eb & Sb & _).
  exists (k12 Gaussian 2 None), f, g, a, b. repeat (split; [assumption|]). exact Sb.
Qed.

(** * C106 *)
(** Data in an array, changed in place: the answers are those of a KDE constructed from the new data, but with the covariance, weights and effective number of points of the old (weights and covariance are copies). *)
Theorem C106_data : forall n w b diag resc d neffa w' h w2 (prob : bool) pdim, held_init n true w b diag resc d neffa = (w', Ok h) -> length (w_data w2) = length (w_data w) ->
  (w_cov w = None -> np_cov (wdata_of (w_data w) (kd_weights (he_kde h))) <> None) ->
  exists C K', (w_cov w = Some C \/ w_cov w = None /\ np_cov (wdata_of (w_data w) (kd_weights (he_kde h))) = Some C)
    /\ kde_init n (w_data w2) (w_weights w) b diag resc d (Some C) (Some (kd_neff (he_kde h))) None = Ok K'
    /\ snd (held_density h w2 prob pdim) = snd (density_call K' prob pdim (seen_refl h w2) PNone)
    /\ forall size keep chunk rn ix, snd (held_resample h w2 size keep chunk rn ix) = snd (kernel_resample (kd_kernel K') n (w_data w2) (kd_weights K') size keep chunk (seen_refl h w2) rn ix).
Proof. exact alias_density. Qed.
Print Assumptions C106_data.

(** Data in a list, boundaries not in a list of the caller: nothing the caller changes has an effect. *)
Theorem C106_list : forall n w b diag resc d neffa w' h w2 (prob : bool) pdim, held_init n false w b diag resc d neffa = (w', Ok h) -> ~ one_entry_each n (w_refl w) ->
  snd (held_density h w2 prob pdim) = kde_density (he_kde h) prob pdim None PNone
  /\ forall size keep chunk rn ix, snd (held_resample h w2 size keep chunk rn ix) = snd (kde_resample (he_kde h) size keep chunk RNone rn ix).
Proof. exact alias_list. Qed.
Print Assumptions C106_list.

(** Boundaries per parameter in a list, changed in place: the new ones are used, and checked when used. *)
Theorem C106_boundaries : forall n arr w b diag resc d neffa w' h w2 (prob : bool) pdim r, held_init n arr w b diag resc d neffa = (w', Ok h) -> one_entry_each n (w_refl w) ->
  length (w_data w2) = length (w_data w) -> w_refl w2 = embed r ->
  (length r = n -> (forall ob, In ob r -> ordered ob) ->
   snd (held_density h w2 prob pdim) = kde_density (with_data (seen_data h w2) None (he_kde h)) prob pdim (Some r) PNone)
  /\ (length r <> n -> length r <> 2%nat -> snd (held_density h w2 prob pdim) = Err ValueError).
Proof. exact alias_boundaries. Qed.
Print Assumptions C106_boundaries.

(** True put into that list later: the next evaluation writes the padded limits of the current data in its place, for good; nothing else of the caller is changed. *)
Theorem C106_written : forall n w b diag resc d neffa w' h w2 (prob : bool) pdim r1 r2 m M, held_init n true w b diag resc d neffa = (w', Ok h) -> one_entry_each n (w_refl w) ->
  length (w_data w2) = length (w_data w) -> w_refl w2 = RSeq KList (map embed_entry r1 ++ EAtom (VBool true) :: map embed_entry r2) ->
  (length r1 + S (length r2) = n)%nat -> (forall ob, In ob (r1 ++ r2) -> ordered ob) ->
  is_min (w_data w2) (length r1) m -> is_max (w_data w2) (length r1) M -> m * (1 - num_pad) < M * (1 + num_pad) ->
  let r := r1 ++ Some (Some (m * (1 - num_pad)), Some (M * (1 + num_pad))) :: r2 in
  held_density h w2 prob pdim = (mkW (w_data w2) (w_weights w2) (w_cov w2) (embed r), kde_density (with_data (w_data w2) None (he_kde h)) prob pdim (Some r) PNone)
  /\ (forall w3 pr pd, length (w_data w3) = length (w_data w) -> w_refl w3 = embed r -> fst (held_density h w3 pr pd) = w3).
Proof. exact alias_frozen. Qed.
Print Assumptions C106_written.

(** The density after a change is not that of a KDE of the new data. *)
Theorem C106_refuted : exists w w1 w2 h h2 w3 f g x, held_init 1 true w (BwAtom (BNum 1)) false None Box None = (w1, Ok h)
  /\ length (w_data w2) = length (w_data w) /\ held_init 1 true w2 (BwAtom (BNum 1)) false None Box None = (w3, Ok h2)
  /\ snd (held_density h w2 true 1) = Ok f /\ snd (held_density h2 w2 true 1) = Ok g /\ f x = 0 /\ 0 < g x.
Proof. exact alias_refuted. Qed.
Print Assumptions C106_refuted.

Example C106_example : exists C, held_init 1 true (pair_world 0 1) (BwAtom (BNum 1)) false None Gaussian None = (pair_world 0 1, Ok (mkHeld (pair_kde 0 1 Gaussian C) true false))
  /\ length (w_data (pair_world 0 2)) = length (w_data (pair_world 0 1)) /\ np_cov (wdata_of (pair_data 0 1) None) <> None /\ ~ one_entry_each 1 (w_refl (pair_world 0 1)).
Proof.
  destruct (pair_init 0 1 Gaussian) as [C [H _]]. exists C. split; [|split; [reflexivity|split; [rewrite pair_cov; discriminate|rewrite <- kept_iff; discriminate]]].
  unfold held_init, kde_new. cbn [pair_world w_data w_weights w_cov w_refl check_reflect fst snd bind refl_kept]. rewrite H. reflexivity.
Qed.
Example C106_boundaries_example : exists w' h, held_init 2 true (mkW [origin] WNone (Some ident) (embed [Some (Some (-1), None); None])) (BwAtom (BNum 1)) false None Gaussian None = (w', Ok h)
  /\ one_entry_each 2 (embed [Some (Some (-1), None); None]).
Proof.
  unfold held_init, kde_new. cbn [w_data w_weights w_cov w_refl].
  eexists. eexists. split; [|apply kept_iff; reflexivity]. unfold embed. cbn. reflexivity.
Qed.

Example C106_written_example : is_min [origin; fun _ => 1] 1 0 /\ is_max [origin; fun _ => 1] 1 1 /\ 0 * (1 - num_pad) < 1 * (1 + num_pad).
Proof.
  pose proof num_pad_pos. split; [|split; [|lra]].
  - split; [exists origin; split; [left; reflexivity|reflexivity]|]. intros p [<-|[<-|[]]]; unfold origin; cbn; lra.
  - split; [exists (fun _ => 1); split; [right; left; reflexivity|reflexivity]|]. intros p [<-|[<-|[]]]; unfold origin; cbn; lra.
Qed.

(** * C107 *)
(** Automatic points, once computed, stay as they are when the data change. *)
Theorem C107_points : forall o st g st' data', points_st o st = (Ok g, st') -> points_st (obj_with data' o) st' = (Ok g, st').
Proof. exact alias_points. Qed.
Print Assumptions C107_points.

(** The cumulative distribution, once evaluated anywhere, stays that of the old data everywhere. *)
Theorem C107_cdf : forall o y v st' data' x, cdf_st o (ostate0 o) false false y = (Ok v, st') ->
  fst (cdf_st (obj_with data' o) st' false false x) = do g <- kde_points (ob_sorter o) (ob_kde o) (ob_bw o) (ob_ext o) (ob_edges o) ;; kde_cdf (ob_kde o) g false false x.
Proof. exact alias_cdf_old. Qed.
Print Assumptions C107_cdf.

(** If only the points had been computed: the density of the new data with the old covariance, on the points of the old data. *)
Theorem C107_mixed : forall o g st' data' x, points_st o (ostate0 o) = (Ok g, st') ->
  fst (cdf_st (obj_with data' o) st' false false x) = kde_cdf (with_data data' (kd_reflect (ob_kde o)) (ob_kde o)) g false false x.
Proof. exact alias_cdf_mixed. Qed.
Print Assumptions C107_mixed.

Example C107_example : exists o v st', cdf_st o (ostate0 o) false false [1] = (Ok (Fin v), st') /\ kd_data (ob_kde o) = [origin].
Proof.
  set (o := mkObj (k12 Gaussian 1 None) (fun l => l) ident [(0, 1)] (EdEach [EdVec [0; 1; 3]])).
  assert (HG : is_grid [[0; 1; 3]]).
  { intros g [<-|[]]. split; [cbn; lia|]. intros i j Hij. cbn in Hij. destruct j as [|[|[|]]]; destruct i as [|[|[|]]]; cbn; try lia; lra. }
  destruct (cdf_gaussian 1 [origin] [1] ident (k12 Gaussian 1 None) [[0; 1; 3]] (le_n 1) (k12_built Gaussian 1 None) HG eq_refl) as [c [Hc _]].
  destruct (cdf_good o (ostate0 o) false false [1] (ogood0 o)) as [E _].
  assert (Ep : fresh_points o = Ok [[0; 1; 3]]) by reflexivity.
  unfold fresh_cdf in E. rewrite Ep in E. cbn [bind o ob_kde] in E. rewrite (Hc [1] eq_refl) in E.
  destruct (cdf_st o (ostate0 o) false false [1]) as [r st'] eqn:Er. cbn [fst] in E. subst r. exists o, (c [1]), st'. split; [exact Er|reflexivity].
Qed.


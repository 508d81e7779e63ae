(** C143: automatic grids and the units of the data. *)
From Verif Require Import Base ModelLinAlg ModelKernels ModelKDE ModelExtrema ModelInterp ModelResample ModelUtils ModelNd ModelGrid SpecUtils SpecKDE SpecUnits
  ProofUtils2 ProofAlias ProofUnits ProofUnits2.
Open Scope R_scope.
Notation length := List.length.

(** Quantiles in other units (the errors are the same, too). *)
Theorem C143_quantiles : forall sorter s c values ps w sorted, sorts sorter -> by_comparison sorter -> 0 < c ->
  quantiles sorter (map (unit_of s c) values) ps w sorted = do q <- quantiles sorter values ps w sorted ;; Ok (map (unit_of s c) q).
Proof. exact quantiles_unit. Qed.
Print Assumptions C143_quantiles.
Example C143_ex_sorter : sorts isort /\ by_comparison isort.
Proof. split; [exact isort_sorts|exact isort_by_comparison]. Qed.
Example C143_ex_quantiles : quantiles isort (map (unit_of 10 100) [0; 1]) (Some [3 / 4; 1 / 4]) None false = Ok [110; 10].
Proof.
  rewrite C143_quantiles by (try exact isort_sorts; try exact isort_by_comparison; lra). rewrite quartiles_01 by exact isort_sorts. cbn [bind map]. unfold unit_of. f_equal. f_equal; [lra|]. f_equal. lra.
Qed.

(** Edges without a bandwidth (the plotting functions; bw = 0), or with a bandwidth in the units of the data. *)
Theorem C143_edges : forall sorter s c e data lo hi ndim nmin nmax pad w refine bw, sorts sorter -> by_comparison sorter -> 0 < c ->
  data <> [] -> lo < hi -> 0 < refine -> weighs (length data) w ->
  get_edges_1d sorter (edge_unit s c e) (map (unit_of s c) data) (unit_of s c lo, unit_of s c hi) ndim nmin nmax pad w refine (c * bw)
  = do g <- get_edges_1d sorter e data (lo, hi) ndim nmin nmax pad w refine bw ;; Ok (map (unit_of s c) g).
Proof. exact edges_unit. Qed.
Print Assumptions C143_edges.

(** KDE.extrema follow the units. *)
Theorem C143_extrema : forall n data w b diag resc d neffa refl s c K K' ppf, (forall i, 0 < c i) -> some_boundary n refl ->
  kde_init n data w b diag resc d None neffa refl = Ok K ->
  kde_init n (map (aff s c) data) w b diag resc d None neffa (option_map (aff_refl s c 0) refl) = Ok K' ->
  kde_extrema K' ppf None = option_map (fun r => do e <- r ;; Ok (ranges_unit s c e)) (kde_extrema K ppf None).
Proof. exact extrema_units. Qed.
Print Assumptions C143_extrema.

(** KDE.points would follow the units if the bandwidth handed on were in units of the data. *)
Theorem C143_points : forall sorter n data w b diag resc d neffa refl s c K K' bw ext edges, (1 <= n)%nat -> sorts sorter -> by_comparison sorter -> (forall i, 0 < c i) ->
  kde_init n data w b diag resc d None neffa refl = Ok K ->
  kde_init n (map (aff s c) data) w b diag resc d None neffa (option_map (aff_refl s c 0) refl) = Ok K' ->
  length ext = n -> (forall p, In p ext -> fst p < snd p) ->
  kde_points sorter K' (fun i j => c i * bw i j) (ranges_unit s c ext) (request_unit n s c edges)
  = do g <- kde_points sorter K bw ext edges ;; Ok (grid_unit s c g).
Proof. exact points_units. Qed.
Print Assumptions C143_points.

(** Moving the data moves the points. *)
Theorem C143_moved : forall sorter n data w b diag resc d neffa refl s K K' bw ext edges ppf, (1 <= n)%nat -> sorts sorter -> by_comparison sorter -> some_boundary n refl ->
  kde_init n data w b diag resc d None neffa refl = Ok K ->
  kde_init n (map (aff s (fun _ => 1)) data) w b diag resc d None neffa (option_map (aff_refl s (fun _ => 1) 0) refl) = Ok K' ->
  kde_extrema K ppf None = Some (Ok ext) -> length ext = n -> (forall p, In p ext -> fst p < snd p) ->
  exists ext', kde_extrema K' ppf None = Some (Ok ext')
    /\ kde_points sorter K' bw ext' (request_unit n s (fun _ => 1) edges) = do g <- kde_points sorter K bw ext edges ;; Ok (grid_unit s (fun _ => 1) g).
Proof. exact points_moved. Qed.
Print Assumptions C143_moved.

(** But it is the factor without units: data in small enough units (large numbers) get the largest grid ... *)
Theorem C143_many : forall sorter n data w b diag resc d neffa refl K bw ext i, (1 <= n)%nat -> (i < n)%nat ->
  kde_init n data w b diag resc d None neffa refl = Ok K ->
  length ext = n -> fst (nth i ext (0, 0)) < snd (nth i ext (0, 0)) -> 0 < bw i i ->
  exists c0, 0 < c0 /\ forall s c K' pts', (forall j, 0 < c j) -> c0 <= c i ->
    kde_init n (map (aff s c) data) w b diag resc d None neffa (option_map (aff_refl s c 0) refl) = Ok K' ->
    kde_points sorter K' bw (ranges_unit s c ext) (EdAll EdAuto) = Ok pts' -> length (nth i pts' []) = 201%nat.
Proof. exact points_many. Qed.
Print Assumptions C143_many.

(** ... and data in large units (small numbers) the grid computed without the bandwidth. *)
Theorem C143_few : forall sorter n data w b diag resc d neffa refl K bw ext i pts, (1 <= n)%nat -> (i < n)%nat -> sorts sorter -> by_comparison sorter ->
  kde_init n data w b diag resc d None neffa refl = Ok K ->
  length ext = n -> fst (nth i ext (0, 0)) < snd (nth i ext (0, 0)) -> 0 < bw i i ->
  kde_points sorter K (fun _ _ => 0) ext (EdAll EdAuto) = Ok pts ->
  exists c0, 0 < c0 /\ forall s c K' pts', (forall j, 0 < c j) -> c i <= c0 ->
    kde_init n (map (aff s c) data) w b diag resc d None neffa (option_map (aff_refl s c 0) refl) = Ok K' ->
    kde_points sorter K' bw (ranges_unit s c ext) (EdAll EdAuto) = Ok pts' -> nth i pts' [] = map (unit_of (s i) (c i)) (nth i pts []).
Proof. exact points_few. Qed.
Print Assumptions C143_few.

(** The same two data in two units: at most 26 points and 201 points. *)
Theorem C143_units_refuted : exists data K K' c bw ext ext', 0 < c
  /\ kde_init 1 data WNone (BwAtom (BNum 1)) false None Box None None None = Ok K
  /\ kde_init 1 (map (aff (fun _ => 0) (fun _ => c)) data) WNone (BwAtom (BNum 1)) false None Box None None None = Ok K'
  /\ set_bandwidth (kd_neff K) 1 false (BwAtom (BNum 1)) None = Ok bw /\ set_bandwidth (kd_neff K') 1 false (BwAtom (BNum 1)) None = Ok bw
  /\ (forall ppf, kde_extrema K ppf None = Some (Ok ext)) /\ (forall ppf, kde_extrema K' ppf None = Some (Ok ext'))
  /\ forall sorter, sorts sorter -> by_comparison sorter -> exists pts pts',
       kde_points sorter K bw ext (EdAll EdAuto) = Ok pts /\ kde_points sorter K' bw ext' (EdAll EdAuto) = Ok pts'
       /\ (length (nth 0 pts []) <= 26)%nat /\ length (nth 0 pts' []) = 201%nat.
Proof. exact units_of_points_refuted. Qed.
Print Assumptions C143_units_refuted.

(** A case for the hypotheses on boundaries and ranges: two data, one boundary. *)
Example C143_ex_boundary : some_boundary 1 (Some [Some (Some 0, None)]) /\ some_boundary 1 None /\ (exists C, kde_init 1 (pair_data 0 1) WNone (BwAtom (BNum 1)) false None Box None None None = Ok (pair_kde 0 1 Box C))
  /\ request_unit 1 (fun _ => 3) (fun _ => 2) (EdAll (EdVec [0; 1])) = EdEach [EdVec [3 + 2 * 0; 3 + 2 * 1]].
Proof. split; [split; [reflexivity|eexists; left; reflexivity]|]. split; [exact I|]. split; [destruct (pair_init 0 1 Box) as [C [H _]]; exists C; exact H|reflexivity]. Qed.

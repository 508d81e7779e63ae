(** Proofs about dist1d as a whole. *)
From Coq Require Import String ZArith Permutation FunctionalExtensionality.
From Verif Require Import Base ModelLinAlg SpecLinAlg ProofLinAlg SpecIntegral ProofIntegral ModelKernels SpecKernels ProofKernels ModelKDE SpecKDE
  ProofMarginal ProofTop2 ModelReflect ModelExtrema ModelInterp ModelResample ModelUtils ModelNd ModelGrid ModelSample ModelApi ModelPlot ModelDist
  SpecUtils SpecPlot SpecApi SpecDist ProofUtils3 ProofUtils4 ProofExtrema ProofApi ProofPlot3 ProofTop ProofKDE ProofExamples ProofDist.
Open Scope R_scope.
Notation length := List.length.

Lemma limit_ok a : limit_accepted a -> exists lim, scatter_limit a = Ok lim.
Proof.
  destruct scatter_limit_cases as (H1 & H2 & H3 & _ & H5). destruct a; intros H; try (eexists; eassumption).
  destruct (H5 r H) as (k & E & _). eexists; exact E.
Qed.
Lemma curve_arg_factor b d : curve_arg b d -> dens_factor b d = Some 1.
Proof. intros [-> | [-> ->]]; reflexivity. Qed.
Lemma curve_factor_ok b d r : curve_factor b d r -> dens_factor b d = Some r.
Proof. intros [-> | [H ->]]; [reflexivity|]. apply curve_arg_factor, H. Qed.
Lemma bars_ok (b : bool) hist : bars_drawn b hist -> (match hist with None => negb b | Some x => x end) = true.
Proof. intros [-> | [-> ->]]; reflexivity. Qed.

Lemma dist1d_totals : forall sorter auto pts sel n data ws d M K flat p es (prob : bool) param dens carpet qs,
  built_kde n data ws d M None K -> (param < n)%nat -> covers es (coords param data) -> curve_arg true dens -> limit_accepted carpet ->
  exists dr g h, dist1d sorter auto pts sel (S1Kde K flat p) (EdVec es) None prob param dens false (Some true) carpet qs = Ok dr
  /\ kde_density K prob 1 None (PInt param) = Ok g
  /\ d1_curve dr = Some (es, map (fun x => g (line_pt x)) es) /\ is_tint (fun x => g (line_pt x)) (mass prob ws)
  /\ d1_hist dr = Some (h, es) /\ bar_area h es = mass prob ws.
Proof.
  intros sorter auto pts sel n data ws d M K flat p es prob param dens carpet qs HB Hp Hc Hd Hl.
  destruct (built_inv _ _ _ _ _ _ _ HB) as (En & Ed & Hne & Er & Ew & Hlw & Hnn & Hpos & Et & Ek & Hs & Hpd).
  destruct (limit_ok _ Hl) as [lim El].
  destruct (param_integral n data ws d M K prob param (fun _ => 0) HB Hp) as [g [Hg Hi]].
  destruct (curve_vector K flat p es prob param 1 g Hg) as (xy & E1 & E2).
  destruct (covers_area (coords param data) es (kd_weights K) prob Hc) as [h [E3 E4]].
  { rewrite the_weights_coords, Ew. unfold coords. rewrite map_length. exact Hlw. }
  { rewrite the_weights_coords, Ew. lra. }
  eexists. exists g, h. split; [|split; [exact Hg|]].
  - unfold dist1d. rewrite En. apply Nat.ltb_lt in Hp. rewrite Hp. cbn [bind]. rewrite El. cbn [bind].
    rewrite (curve_arg_factor _ _ Hd). cbn [bind]. rewrite E1. cbn [bind]. rewrite E2. cbn [bind].
    unfold hist1d. rewrite Ed, histogram_of_vec by (left; reflexivity). rewrite E3. cbn [bind]. reflexivity.
  - cbn [d1_curve d1_hist]. split; [do 2 f_equal; apply map_ext; intros; ring|]. split; [exact (tint_line _ _ _ Hi (fun _ => eq_refl))|].
    split; [reflexivity|]. rewrite E4, the_weights_coords, Ew. reflexivity.
Qed.

(* ------------------------------------------------------------ numbers instead of a KDE *)
Lemma vector_kde data wo : data <> [] -> length (the_weights data wo) = length data -> (forall v, In v (the_weights data wo) -> 0 <= v) ->
  two_values data (the_weights data wo) ->
  exists K M, kde_of_vector data wo = Ok K /\ built_kde 1 (as_points data) (the_weights data wo) Gaussian M None K /\ kd_weights K = wo.
Proof.
  intros Hne Hl Hnn (i & j & Hij & Hj & Hx & Hi' & Hj').
  set (ws := the_weights data wo) in *. set (w := match wo with None => WNone | Some w => WArr (map Fin w) end).
  assert (Hg : weights_given w (as_points data) ws).
  { unfold w, ws, the_weights. destruct wo as [l|]; [right; reflexivity|]. left. split; [reflexivity|]. unfold as_points.
    rewrite map_length. clear. induction data; cbn; [reflexivity|f_equal; assumption]. }
  assert (Hin : forall k, (k < length data)%nat -> In (((fun _ => vget data k) : pt), vget ws k) (combine (as_points data) ws)).
  { intros k Hk. replace ((fun _ => vget data k) : pt, vget ws k) with (nth k (combine (as_points data) ws) (((fun _ => 0) : pt), 0)).
    - apply nth_In. rewrite combine_length. unfold as_points. rewrite map_length. lia.
    - rewrite combine_nth by (unfold as_points; rewrite map_length; symmetry; exact Hl). unfold as_points, vget.
      f_equal. change ((fun _ : nat => 0) : pt) with ((fun x => ((fun _ => x) : pt)) 0). rewrite map_nth. reflexivity. }
  destruct (default_ok 1 (as_points data) w ws Gaussian None) as (K & M & N & HK & Hk & Hs & Hpd & _ & _ & _ & _ & _ & Hw & _).
  - unfold as_points. destruct data; [congruence|discriminate].
  - exact Hg.
  - unfold as_points. rewrite map_length. exact Hl.
  - exact Hnn.
  - assert (G : forall (l : list R) a b, (a < b)%nat -> (b < length l)%nat -> vget l a <> 0 -> vget l b <> 0 -> (2 <= nnz l)%nat).
    { assert (G1 : forall (l : list R) b, (b < length l)%nat -> vget l b <> 0 -> (1 <= nnz l)%nat).
      { induction l as [|x l IH]; intros b Hb Hv; [cbn in Hb; lia|]. rewrite nnz_cons. destruct b as [|b].
        - unfold vget in Hv. cbn in Hv. destruct (Reqb_spec x 0); [contradiction|lia].
        - specialize (IH b ltac:(cbn in Hb; lia) Hv). destruct (Reqb x 0); lia. }
      induction l as [|x l IH]; intros a b Hab Hb Ha Hv; [cbn in Hb; lia|]. rewrite nnz_cons. destruct b as [|b]; [lia|]. destruct a as [|a].
      - unfold vget in Ha. cbn in Ha. destruct (Reqb_spec x 0); [contradiction|]. specialize (G1 l b ltac:(cbn in Hb; lia) Hv). lia.
      - specialize (IH a b ltac:(lia) ltac:(cbn in Hb; lia) Ha Hv). destruct (Reqb x 0); lia. }
    apply (G ws i j); try assumption. rewrite Hl. exact Hj.
  - intros (v & c & (k & Hk0 & Hv) & Hall). assert (k = 0)%nat by lia. subst k.
    pose proof (Hall _ _ (Hin i ltac:(lia)) Hi') as A. pose proof (Hall _ _ (Hin j Hj) Hj') as B. cbn in A, B. apply Hx. nra.
  - exists K, M. split; [|split].
    + unfold kde_of_vector. unfold kde_call. fold w. fold (as_points data). cbn [snd default_kw kw_bw kw_diag kw_rescale kw_cov kw_neff kw_kernel kw_extra].
      unfold kde_new. cbn [check_reflect fst snd bind]. rewrite HK. cbn [bind get_distribution_class forallb]. exact HK.
    + split; [|split; [exact Hk|split; assumption]]. exists w, BwNone, false, None, None, None. split; [exact Hg|exact HK].
    + unfold kde_init in HK. destruct (Nat.eqb _ 0); [discriminate|]. destruct (check_weights _ _) as [ow|] eqn:Ew; [|discriminate]. cbn [bind] in HK.
      assert (E : kd_weights K = ow).
      { cbv zeta in HK. destruct (set_bandwidth _ _ _ _ _) as [bw|]; [|discriminate]. cbn [bind] in HK. injection HK as <-. reflexivity. }
      rewrite E. revert Ew. unfold w. destruct wo as [l|].
      * rewrite E in Hw. intros Ew. destruct ow as [l'|]; [cbn in Hw; f_equal; exact Hw|]. exfalso. revert Ew. unfold check_weights.
        repeat (match goal with |- context [if ?b then _ else _] => destruct b end; try discriminate).
      * unfold check_weights. intros Ew. injection Ew as <-. reflexivity.
Qed.
Lemma dist1d_data_as_kde : forall sorter auto pts sel data wo K edges (prob : bool) dens confid h carpet qs,
  kde_of_vector data wo = Ok K -> kd_data K = as_points data -> kd_ndim K = 1%nat -> kd_weights K = wo ->
  dens_factor false dens <> None ->
  dist1d sorter auto pts sel (S1Data true data) edges wo prob 0 dens confid (Some h) carpet qs
  = dist1d sorter auto pts sel (S1Kde K true (pts K)) edges None prob 0 dens confid (Some h) carpet qs.
Proof.
  intros sorter auto pts sel data wo K edges prob dens confid h carpet qs HK Hd Hn Hw Hf.
  assert (Ec : coords 0 (kd_data K) = data). { rewrite Hd. unfold coords, as_points. rewrite map_map. apply map_id. }
  unfold dist1d. rewrite Hn, Ec, Hw. cbn [Nat.ltb Nat.leb bind]. destruct (scatter_limit carpet); [|reflexivity]. cbn [bind].
  assert (Ef : dens_factor true dens = dens_factor false dens) by (destruct dens; try reflexivity; contradiction Hf; reflexivity).
  rewrite Ef. destruct (dens_factor false dens); [|reflexivity]. rewrite HK. reflexivity.
Qed.
Lemma dist1d_data_totals : forall sorter auto pts sel data wo es (prob : bool) hist carpet qs,
  length (the_weights data wo) = length data -> (forall v, In v (the_weights data wo) -> 0 <= v) ->
  two_values data (the_weights data wo) -> covers es data -> bars_drawn false hist -> limit_accepted carpet ->
  exists dr g h, dist1d sorter auto pts sel (S1Data true data) (EdVec es) wo prob 0 DaTrue false hist carpet qs = Ok dr
  /\ d1_curve dr = Some (es, map g es) /\ is_tint g (mass prob (the_weights data wo))
  /\ d1_hist dr = Some (h, es) /\ bar_area h es = mass prob (the_weights data wo).
Proof.
  intros sorter auto pts sel data wo es prob hist carpet qs Hl Hnn H2 Hc Hb Hlim.
  assert (Hne : data <> []). { destruct H2 as (i & j & _ & Hj & _). destruct data; [cbn in Hj; lia|discriminate]. }
  destruct (vector_kde data wo Hne Hl Hnn H2) as (K & M & HK & HB & Hw).
  destruct (built_inv _ _ _ _ _ _ _ HB) as (En & Ed & _).
  destruct (dist1d_totals sorter auto pts sel 1 (as_points data) _ Gaussian M K true (pts K) es prob 0 DaTrue carpet qs HB) as (dr & g & h & E & _ & H1 & H3 & H4 & H5).
  - lia.
  - replace (coords 0 (as_points data)) with data; [exact Hc|]. unfold coords, as_points. rewrite map_map. symmetry. apply map_id.
  - left; reflexivity.
  - exact Hlim.
  - exists dr, (fun x => g (line_pt x)), h. split; [|tauto]. rewrite <- E.
    transitivity (dist1d sorter auto pts sel (S1Data true data) (EdVec es) wo prob 0 DaTrue false (Some true) carpet qs).
    + destruct Hb as [-> | [-> _]]; reflexivity.
    + apply dist1d_data_as_kde; try assumption. discriminate.
Qed.

(* ------------------------------------------------------------ histograms *)
Lemma hist1d_auto_weights : forall auto data isarr w (dens prob : bool), hist1d auto data isarr EdAuto (Some w) dens prob = Err TypeError.
Proof. reflexivity. Qed.
Lemma dist1d_auto_weights : forall sorter auto pts sel isarr data w (prob : bool) param dens confid hist carpet qs,
  bars_drawn false hist ->
  (forall dr, dist1d sorter auto pts sel (S1Data isarr data) EdAuto (Some w) prob param dens confid hist carpet qs <> Ok dr)
  /\ (dens = DaNone \/ dens = DaFalse -> limit_accepted carpet ->
      dist1d sorter auto pts sel (S1Data isarr data) EdAuto (Some w) prob param dens confid hist carpet qs = Err TypeError).
Proof.
  intros sorter auto pts sel isarr data w prob param dens confid hist carpet qs Hb. apply bars_ok in Hb. unfold dist1d. cbn [bind]. rewrite Hb.
  split.
  - intros dr. destruct (scatter_limit carpet); [|discriminate]. cbn [bind]. destruct (match dens_factor _ _ with None => _ | Some _ => _ end); [|discriminate].
    cbn [bind]. discriminate.
  - intros Hd Hl. destruct (limit_ok _ Hl) as [lim ->]. cbn [bind]. destruct Hd as [-> | ->]; reflexivity.
Qed.
Lemma dist1d_auto_weights_kde : forall sorter auto pts sel K flat p w (prob : bool) param dens confid carpet qs,
  kd_weights K = Some w ->
  forall dr, dist1d sorter auto pts sel (S1Kde K flat p) EdAuto None prob param dens confid (Some true) carpet qs <> Ok dr.
Proof.
  intros sorter auto pts sel K flat p w prob param dens confid carpet qs Hw dr. unfold dist1d. destruct (Nat.ltb _ _); [|discriminate]. cbn [bind].
  destruct (scatter_limit carpet); [|discriminate]. cbn [bind]. destruct (match dens_factor _ _ with None => _ | Some _ => _ end); [|discriminate].
  cbn [bind]. rewrite Hw. discriminate.
Qed.

Lemma linspace_incr a b n : a < b -> (1 <= n)%nat -> incr_list (linspace a b (n + 1)).
Proof.
  intros Hab Hn i j Hij Hj. rewrite linspace_length in Hj. rewrite !linspace_nth by lia. replace (n + 1 - 1)%nat with n by lia.
  assert (0 < INR n) by (apply lt_0_INR; lia). apply Rplus_lt_compat_l. unfold Rdiv. apply Rmult_lt_compat_r; [apply Rinv_0_lt_compat; assumption|].
  apply Rmult_lt_compat_r; [lra|]. apply lt_INR, Hij.
Qed.
Lemma linspace_covers a b n data : a < b -> (1 <= n)%nat -> (forall x, In x data -> a <= x <= b) -> covers (linspace a b (n + 1)) data.
Proof.
  intros Hab Hn Hin. unfold covers. rewrite linspace_length. split; [lia|]. split; [apply linspace_incr; assumption|]. intros x Hx.
  unfold vget. rewrite !linspace_nth by lia. replace (n + 1 - 1)%nat with n by lia. cbn [INR].
  assert (0 < INR n) by (apply lt_0_INR; lia). replace (a + INR n * (b - a) / INR n) with b by (field; lra).
  replace (a + 0 * (b - a) / INR n) with a by (field; lra). apply Hin, Hx.
Qed.
Lemma equal_edges_cover data n : data <> [] -> (1 <= n)%nat -> covers (equal_edges data n) data /\ length (equal_edges data n) = (n + 1)%nat.
Proof.
  intros Hne Hn. unfold equal_edges. destruct data as [|x0 data0] eqn:E; [congruence|]. rewrite <- E in *. clear E x0 data0.
  pose proof (lmin_lmax data Hne). destruct (Reqb_spec (lmin data) (lmax data)) as [E|E].
  - split; [|apply linspace_length]. apply linspace_covers; [lra|exact Hn|]. intros x Hx. pose proof (lmin_le data x Hx). pose proof (lmax_ge data x Hx). lra.
  - split; [|apply linspace_length]. apply linspace_covers; [lra|exact Hn|]. intros x Hx. split; [apply lmin_le, Hx|apply lmax_ge, Hx].
Qed.
Lemma hist1d_bins : forall auto data isarr n wo (prob : bool),
  data <> [] -> (1 <= n)%nat -> length (the_weights data wo) = length data -> lsum (the_weights data wo) <> 0 -> isarr = true \/ wo <> None \/ prob = false ->
  exists h es, hist1d auto data isarr (EdNum n) wo true prob = Ok (h, es) /\ length es = S n /\ covers es data /\ bar_area h es = mass prob (the_weights data wo).
Proof.
  intros auto data isarr n wo prob Hne Hn Hl Hw Ha. destruct (equal_edges_cover data n Hne Hn) as [Hc Hle].
  destruct (covers_area data (equal_edges data n) wo prob Hc Hl Hw) as [h [E1 E2]]. exists h, (equal_edges data n).
  split; [|split; [lia|split; assumption]].
  unfold hist1d. rewrite <- E1, <- (histogram_of_vec auto data isarr _ wo true prob Ha). unfold histogram_of. destruct n; [lia|]. reflexivity.
Qed.
Lemma hist1d_vector : forall auto data isarr es wo (prob : bool),
  covers es data -> length (the_weights data wo) = length data -> lsum (the_weights data wo) <> 0 -> isarr = true \/ wo <> None \/ prob = false ->
  exists h, hist1d auto data isarr (EdVec es) wo true prob = Ok (h, es) /\ bar_area h es = mass prob (the_weights data wo).
Proof.
  intros auto data isarr es wo prob Hc Hl Hw Ha. destruct (covers_area data es wo prob Hc Hl Hw) as [h [E1 E2]]. exists h. split; [|exact E2].
  unfold hist1d. rewrite histogram_of_vec by exact Ha. exact E1.
Qed.

Lemma dist1d_list : forall sorter auto pts sel data edges param dens confid hist carpet qs,
  bars_drawn false hist ->
  (forall dr, dist1d sorter auto pts sel (S1Data false data) edges None true param dens confid hist carpet qs <> Ok dr)
  /\ (dens = DaNone \/ dens = DaFalse -> limit_accepted carpet -> data <> [] ->
      match edges with EdVec es => nondecr_list es | EdNum n => (1 <= n)%nat | EdAuto => nondecr_list (auto data) end ->
      dist1d sorter auto pts sel (S1Data false data) edges None true param dens confid hist carpet qs = Err AttributeError).
Proof.
  intros sorter auto pts sel data edges param dens confid hist carpet qs Hb. apply bars_ok in Hb. unfold dist1d. cbn [bind]. rewrite Hb.
  assert (Hn : forall r, hist1d auto data false edges None true true <> Ok r).
  { intros r. unfold hist1d, histogram_of. destruct (match edges with EdAuto => _ | EdNum _ => _ | EdVec _ => _ end); [|discriminate]. cbn [bind].
    destruct (histogram _ _ _ _ _); cbn; discriminate. }
  split.
  - intros dr. destruct (scatter_limit carpet); [|discriminate]. cbn [bind]. destruct (match dens_factor _ _ with None => _ | Some _ => _ end); [|discriminate].
    cbn [bind]. destruct (hist1d _ _ _ _ _ _ _) eqn:E; [exfalso; exact (Hn _ eq_refl)|]. discriminate.
  - intros Hd Hl Hne He. destruct (limit_ok _ Hl) as [lim ->]. cbn [bind].
    assert (E : hist1d auto data false edges None true true = Err AttributeError).
    { unfold hist1d, histogram_of.
      assert (G : forall es, nondecr_list es -> (do h <- histogram data es None true true;; if andb true (negb false) then Err AttributeError else Ok h) = Err AttributeError).
      { intros es Hes. destruct (histogram_entries data es None true true) as [h [Eh _]].
        - unfold the_weights. apply map_length.
        - apply nondecr_spec. intros i Hi. apply Hes; lia.
        - rewrite Eh. reflexivity. }
      destruct edges as [|n|es]; [exact (G _ He)| |exact (G _ He)]. destruct n as [|n]; [lia|]. cbn [Nat.eqb bind].
      apply G. destruct (equal_edges_cover data (S n) Hne ltac:(lia)) as [(_ & Hi & _) _]. intros i j Hij Hj.
      destruct (Nat.eq_dec i j) as [-> |]; [lra|]. left. apply Hi; lia. }
    rewrite E. destruct Hd as [-> | ->]; reflexivity.
Qed.

(* ------------------------------------------------------------ a number of bins, a factor, rows *)
Lemma dist1d_bins_curve : forall sorter auto pts sel n data ws d M K flat p nb (prob : bool) param dens r hist carpet qs,
  built_kde n data ws d M None K -> (param < n)%nat -> curve_factor true dens r -> limit_accepted carpet -> hist = None \/ hist = Some false ->
  (n = 1%nat -> exists dr g, dist1d sorter auto pts sel (S1Kde K flat p) (EdNum nb) None prob param dens false hist carpet qs = Ok dr
     /\ kde_density K prob 1 None (PInt param) = Ok g /\ d1_curve dr = Some ([INR nb], [g (line_pt (INR nb)) * r]))
  /\ (n <> 1%nat -> dist1d sorter auto pts sel (S1Kde K flat p) (EdNum nb) None prob param dens false hist carpet qs = Err TypeError).
Proof.
  intros sorter auto pts sel n data ws d M K flat p nb prob param dens r hist carpet qs HB Hp Hd Hl Hh.
  destruct (built_inv _ _ _ _ _ _ _ HB) as (En & Ed & _).
  destruct (limit_ok _ Hl) as [lim El].
  destruct (param_integral n data ws d M K prob param (fun _ => 0) HB Hp) as [g [Hg _]].
  assert (Hp' : Nat.ltb param (kd_ndim K) = true) by (rewrite En; apply Nat.ltb_lt, Hp).
  assert (Eh : (match hist with Some b => b | None => negb true end) = false) by (destruct Hh as [-> | ->]; reflexivity).
  split; intros Hn.
  - assert (param = 0)%nat by lia. subst param.
    assert (Hg' : kde_density K prob 1 None PNone = Ok g). { rewrite params_1d in Hg by congruence. exact Hg. }
    destruct (number_point K prob None (INR nb) g flat p Hg') as (a & E & V).
    assert (E' : density_values K prob None (PInt 0) false (Some (PtScalar (INR nb))) flat p = Ok (PtScalar (INR nb), a)).
    { rewrite <- E. unfold density_values, resolve_params. rewrite En, Hn. cbn [Nat.eqb negb bind]. unfold rows_values. cbn [forallb]. 
      destruct (andb _ true); [|reflexivity]. cbn [length]. rewrite params_1d by congruence. reflexivity. }
    eexists. exists g. split; [|split; [exact Hg|]].
    + unfold dist1d. rewrite Hp'. cbn [bind]. rewrite El. cbn [bind]. rewrite (curve_factor_ok _ _ _ Hd). cbn [bind edge_points]. rewrite E'. cbn [bind].
      cbn [fst snd plot_curve bind]. rewrite Eh. cbn [bind]. reflexivity.
    + cbn [d1_curve]. do 2 f_equal. rewrite (flatten_vector _ _ _ (map_vector (fun v => v * r) _ _ _ V)). cbn [seq map].
      rewrite (line_nth [INR nb] 0) by (cbn; lia). reflexivity.
  - unfold dist1d. rewrite Hp'. cbn [bind]. rewrite El. cbn [bind]. rewrite (curve_factor_ok _ _ _ Hd). cbn [bind edge_points].
    replace (density_values K prob None (PInt param) false (Some (PtScalar (INR nb))) flat p) with (@Err (points_arg * nda) TypeError); [reflexivity|].
    destruct (rows_values_ok K prob None (PInt param) [[INR nb]] 1 g Hg) as (a & E & V); [discriminate|intros x [<-|[]]; reflexivity|].
    unfold density_values, resolve_params. rewrite En. destruct (Nat.eqb_spec n 1); [contradiction|]. apply Nat.ltb_lt in Hp. rewrite Hp. cbn [bind negb].
    rewrite E. reflexivity.
Qed.

Local Tactic Notation "dbind" "as" simple_intropattern(p) := match goal with |- context [bind ?e _] => destruct e as p end.
Lemma dist1d_scaled : forall sorter auto pts sel src edges wo (prob : bool) param r confid hist carpet qs,
  dist1d sorter auto pts sel src edges wo prob param (DaNum r) confid hist carpet qs
  = (do dr <- dist1d sorter auto pts sel src edges wo prob param DaTrue confid hist carpet qs ;;
     Ok (mkD1 (option_map (times r) (d1_curve dr)) (d1_hist dr) (d1_bands dr) (d1_carpet dr))).
Proof.
  intros sorter auto pts sel src edges wo prob param r confid hist carpet qs. unfold dist1d.
  dbind as [[[data ws] isarr]|?]; [|reflexivity]. cbn [bind].
  destruct (scatter_limit carpet) as [lim|]; [|reflexivity]. cbn [bind dens_factor].
  dbind as [[[K flat] p]|?]; [|reflexivity]. cbn [bind].
  destruct (density_values _ _ _ _ _ _ _ _) as [[x y]|]; [|reflexivity]. cbn [bind fst snd].
  assert (G : plot_curve x (map_nd (fun v => v * r) y) = (do c <- plot_curve x (map_nd (fun v => v * 1) y) ;; Ok (times r c))).
  { assert (Ef : flatten_nd (map_nd (fun v => v * r) y) = map (fun v => v * r) (flatten_nd (map_nd (fun v => v * 1) y))).
    { unfold flatten_nd, map_nd. cbn [shp at_]. rewrite map_map. apply map_ext. intros. ring. }
    destruct x as [q|l|rows]; cbn [plot_curve bind]; unfold times; cbn [fst snd]; rewrite <- ?Ef; try reflexivity.
    destruct rows as [|[|a [|b l]] [|r2 rows]]; cbn [bind fst snd]; rewrite <- ?Ef; reflexivity. }
  rewrite G. destruct (plot_curve x (map_nd (fun v => v * 1) y)) as [c|]; [|reflexivity]. cbn [bind].
  dbind as [h|?]; [|reflexivity]. cbn [bind].
  dbind as [bb|?]; reflexivity.
Qed.
Lemma dist1d_no_curve : forall sorter auto pts sel src edges wo (prob : bool) param confid hist carpet qs dr,
  dist1d sorter auto pts sel src edges wo prob param DaFalse confid hist carpet qs = Ok dr -> d1_curve dr = None.
Proof.
  intros sorter auto pts sel src edges wo prob param confid hist carpet qs dr. unfold dist1d.
  dbind as [[[data ws] isarr]|?]; [|discriminate]. cbn [bind].
  destruct (scatter_limit carpet) as [lim|]; [|discriminate]. cbn [bind dens_factor].
  dbind as [h|?]; [|discriminate]. cbn [bind].
  dbind as [bb|?]; [|discriminate]. cbn [bind]. intros E. injection E as <-. reflexivity.
Qed.
Lemma dist1d_zero : forall sorter auto pts sel src edges wo (prob : bool) param confid hist carpet qs dr,
  dist1d sorter auto pts sel src edges wo prob param (DaNum 0) confid hist carpet qs = Ok dr ->
  exists xs ys, d1_curve dr = Some (xs, ys) /\ forall y, In y ys -> y = 0.
Proof.
  intros sorter auto pts sel src edges wo prob param confid hist carpet qs dr. rewrite dist1d_scaled.
  destruct (dist1d _ _ _ _ _ _ _ _ _ DaTrue _ _ _ _) as [d1|] eqn:E; [|discriminate]. cbn [bind]. intros H. injection H as <-. cbn [d1_curve].
  assert (Hc : exists c, d1_curve d1 = Some c).
  { revert E. unfold dist1d. dbind as [[[data ws] isarr]|?]; [|discriminate]. cbn [bind].
    destruct (scatter_limit carpet) as [lim|]; [|discriminate]. cbn [bind dens_factor].
    dbind as [[[K flat] p]|?]; [|discriminate]. cbn [bind].
    destruct (density_values _ _ _ _ _ _ _ _) as [[x y]|]; [|discriminate]. cbn [bind].
    destruct (plot_curve _ _) as [c|]; [|discriminate]. cbn [bind].
    dbind as [h|?]; [|discriminate]. cbn [bind].
    dbind as [bb|?]; [|discriminate]. cbn [bind]. intros H. injection H as <-. eexists. reflexivity. }
  destruct Hc as [[xs ys] ->]. cbn [option_map times fst snd]. exists xs, (map (fun y => y * 0) ys). split; [reflexivity|].
  intros y Hy. apply in_map_iff in Hy. destruct Hy as [z [<- _]]. ring.
Qed.

Lemma dist1d_rows : forall sorter auto pts sel data ws d M K g (prob : bool) dens r hist carpet qs,
  built_kde 1 data ws d M None K -> curve_factor true dens r -> limit_accepted carpet -> hist = None \/ hist = Some false -> length g <> 1%nat ->
  dist1d sorter auto pts sel (S1Kde K false (Ok [g])) EdAuto None prob 0 dens false hist carpet qs = Err ValueError
  /\ exists dr f, dist1d sorter auto pts sel (S1Kde K true (Ok [g])) EdAuto None prob 0 dens false hist carpet qs = Ok dr
     /\ kde_density K prob 1 None (PInt 0) = Ok f /\ d1_curve dr = Some (g, map (fun x => f (line_pt x) * r) g).
Proof.
  intros sorter auto pts sel data ws d M K g prob dens r hist carpet qs HB Hd Hl Hh Hg1.
  destruct (built_inv _ _ _ _ _ _ _ HB) as (En & Ed & _).
  destruct (limit_ok _ Hl) as [lim El].
  destruct (param_integral 1 data ws d M K prob 0 (fun _ => 0) HB ltac:(lia)) as [f [Hf _]].
  assert (Eh : (match hist with Some b => b | None => negb true end) = false) by (destruct Hh as [-> | ->]; reflexivity).
  destruct (rows_values_ok K prob None (PInt 0) [g] (length g) f Hf) as (a & E & V); [discriminate|intros x [<-|[]]; reflexivity|].
  assert (ED : forall flat : bool, density_values K prob None (PInt 0) false None flat (Ok [g]) = Ok (if flat then PtFlat g else PtRows [g], a)).
  { intros flat. unfold density_values, resolve_params. rewrite En. cbn [Nat.eqb bind negb length Nat.ltb Nat.leb]. rewrite E. reflexivity. }
  split.
  - unfold dist1d. rewrite En. cbn [Nat.ltb Nat.leb bind]. rewrite El. cbn [bind]. rewrite (curve_factor_ok _ _ _ Hd). cbn [bind edge_points].
    rewrite ED. cbn [bind fst snd plot_curve]. destruct g as [|x [|y g]]; try reflexivity. cbn in Hg1. congruence.
  - eexists. exists f. split; [|split; [exact Hf|]].
    + unfold dist1d. rewrite En. cbn [Nat.ltb Nat.leb bind]. rewrite El. cbn [bind]. rewrite (curve_factor_ok _ _ _ Hd). cbn [bind edge_points].
      rewrite ED. cbn [bind fst snd plot_curve]. rewrite Eh. cbn [bind]. reflexivity.
    + cbn [d1_curve]. do 2 f_equal. rewrite (flatten_vector _ _ _ (map_vector (fun v => v * r) _ _ _ V)).
      transitivity (map (fun x => f (line_pt x) * r) (map (fun j => nth j g 0) (seq 0 (length g)))); [|rewrite seq_nth_map; reflexivity].
      rewrite map_map. apply map_ext_in. intros j Hj. apply in_seq in Hj. rewrite line_nth by lia. reflexivity.
Qed.

(* ------------------------------------------------------------ weights with a KDE; the carpet *)
Lemma dist1d_kde_weights : forall sorter auto pts sel K flat p edges w (prob : bool) param dens confid hist carpet qs,
  dist1d sorter auto pts sel (S1Kde K flat p) edges (Some w) prob param dens confid hist carpet qs = Err ValueError.
Proof. reflexivity. Qed.
Lemma dist1d_other : forall sorter auto pts sel edges wo (prob : bool) param dens confid hist carpet qs,
  dist1d sorter auto pts sel S1Other edges wo prob param dens confid hist carpet qs = Err ValueError.
Proof. reflexivity. Qed.
Lemma dist1d_carpet : forall sorter auto pts sel src edges wo (prob : bool) param dens confid hist carpet qs dr,
  dist1d sorter auto pts sel src edges wo prob param dens confid hist carpet qs = Ok dr ->
  exists data, (match src with S1Kde K _ _ => (param < kd_ndim K)%nat /\ data = coords param (kd_data K) | S1Data _ l => data = l | S1Other => False end)
  /\ ((carpet = NaNone \/ carpet = NaFalse) -> d1_carpet dr = None)
  /\ (carpet = NaTrue -> d1_carpet dr = Some data)
  /\ (forall r, carpet = NaNum r -> 1 <= r /\ exists l, d1_carpet dr = Some l
        /\ (INR (length data) <= r -> l = data)
        /\ (r < INR (length data) -> exists k, INR k <= r < INR k + 1 /\ l = map (fun i => nth i data 0) (sel (length data) k))).
Proof.
  intros sorter auto pts sel src edges wo prob param dens confid hist carpet qs dr H. unfold dist1d in H.
  set (e0 := match src with S1Kde _ _ _ => _ | S1Data _ _ => _ | S1Other => _ end) in H.
  destruct e0 as [[[data ws] isarr]|] eqn:E0; [|discriminate H]. cbn [bind] in H.
  exists data. split.
  { unfold e0 in E0. destruct src as [K flat p|b l|]; [|injection E0 as <- _ _; reflexivity|discriminate E0]. destruct wo; [discriminate E0|].
    destruct (Nat.ltb_spec param (kd_ndim K)); [|discriminate E0]. injection E0 as <- _ _. auto. }
  destruct (scatter_limit carpet) as [lim|] eqn:El; [|discriminate H]. cbn [bind] in H.
  match type of H with (do curve <- ?e ;; _) = _ => destruct e as [curve|]; [|discriminate H] end. cbn [bind] in H.
  match type of H with (do h <- ?e ;; _) = _ => destruct e as [h|]; [|discriminate H] end. cbn [bind] in H.
  match type of H with (do b <- ?e ;; _) = _ => destruct e as [b|]; [|discriminate H] end. cbn [bind] in H. injection H as <-. cbn [d1_carpet].
  split; [|split].
  - intros [-> | ->]; cbn in El; injection El as <-; reflexivity.
  - intros ->. cbn in El. injection El as <-. reflexivity.
  - intros r ->. cbn in El. destruct (Z.ltb_spec (trunc_int r) 1) as [G|G]; [discriminate El|]. injection El as <-.
    assert (Hk : IZR (trunc_int r) <= r < IZR (trunc_int r) + 1 /\ 1 <= r).
    { unfold trunc_int in *. destruct (Rleb_spec 0 r) as [P|P].
      - destruct (base_Int_part r). apply IZR_le in G. lra.
      - exfalso. assert (0 <= Int_part (- r))%Z; [|lia]. destruct (base_Int_part (- r)). assert (-1 < IZR (Int_part (- r))) by lra. apply lt_IZR in H1. lia. }
    assert (Hz : INR (Z.to_nat (trunc_int r)) = IZR (trunc_int r)) by (rewrite INR_IZR_INZ, Z2Nat.id by lia; reflexivity).
    split; [apply Hk|]. eexists. split; [reflexivity|]. cbn [limited]. destruct (Nat.ltb_spec (Z.to_nat (trunc_int r)) (length data)) as [L|L]; split; intros Q.
    + exfalso. apply le_INR in L. rewrite S_INR in L. lra.
    + exists (Z.to_nat (trunc_int r)). rewrite Hz. split; [apply Hk|reflexivity].
    + reflexivity.
    + exfalso. apply le_INR in L. lra.
Qed.

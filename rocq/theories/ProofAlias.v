(** Proofs about references to the caller's arrays. *)
From Verif Require Import Base ModelLinAlg SpecLinAlg ProofLinAlg ModelKernels ModelKDE SpecKDE ModelExtrema ModelReflect SpecReflect ProofReflectArg ModelResample ModelInterp ModelNd ModelUtils ModelGrid ModelState ModelAlias SpecAlias
  SpecIntegral SpecKernels ProofDensity ProofReflect1 ProofKDE ProofTop2 ProofState.
Open Scope R_scope.
Notation length := List.length.

(** The KDE of other data with the same number of points: as if constructed with the old covariance and effective number of points. *)
Lemma init_with n data w b diag resc d cova neffa refl K data' refl' : kde_init n data w b diag resc d cova neffa refl = Ok K -> length data' = length data ->
  (cova = None -> np_cov (wdata_of data (kd_weights K)) <> None) ->
  exists C, (cova = Some C \/ cova = None /\ np_cov (wdata_of data (kd_weights K)) = Some C)
    /\ kde_init n data' w b diag resc d (Some C) (Some (kd_neff K)) refl' = Ok (with_data data' refl' K).
Proof.
  unfold kde_init. intros H Hl. rewrite Hl. destruct (Nat.eqb (length data) 0); [discriminate|]. destruct (check_weights _ w) as [ow|]; [|discriminate]. cbn [bind] in *.
  set (neff := match neffa with Some x => x | None => _ end) in *. destruct (set_bandwidth neff n diag b resc) as [bw|] eqn:Eb; [|discriminate]. cbn [bind] in H.
  injection H as <-. cbn [kd_weights kd_neff]. intros Hc. rewrite Eb. cbn [bind].
  destruct cova as [C|]; [exists C; split; [left; reflexivity|reflexivity]|]. destruct (np_cov (wdata_of data ow)) as [C|]; [|contradiction (Hc eq_refl eq_refl)].
  exists C. split; [right; split; reflexivity|reflexivity].
Qed.

Lemma new_inv n data w b diag resc d cova neffa arg arg' K : kde_new n data w b diag resc d cova neffa arg = (arg', Ok K) ->
  exists spec, check_reflect n data arg = (arg', Ok spec) /\ kde_init n data w b diag resc d cova neffa spec = Ok K.
Proof.
  unfold kde_new. destruct (check_reflect n data arg) as [a [spec|e]]; cbn [fst snd bind]; intros H; [|discriminate]. injection H as <- H. exists spec. split; [reflexivity|exact H].
Qed.
Lemma held_inv n arr w b diag resc d neffa w' h : held_init n arr w b diag resc d neffa = (w', Ok h) ->
  exists K spec arg', w' = mkW (w_data w) (w_weights w) (w_cov w) arg' /\ h = mkHeld K arr (refl_kept n (w_refl w)) /\ check_reflect n (w_data w) (w_refl w) = (arg', Ok spec)
    /\ kde_init n (w_data w) (w_weights w) b diag resc d (w_cov w) neffa spec = Ok K.
Proof.
  unfold held_init. destruct (kde_new _ _ _ _ _ _ _ _ _ _) as [a [K|e]] eqn:E; cbn [fst snd bind]; intros H; [|discriminate]. injection H as <- <-.
  destruct (new_inv _ _ _ _ _ _ _ _ _ _ _ _ E) as [spec [H1 H2]]. exists K, spec, a. repeat split; assumption.
Qed.
Lemma init_reflect n data w b diag resc d cova neffa refl K : kde_init n data w b diag resc d cova neffa refl = Ok K -> kd_reflect K = refl /\ kd_ndim K = n /\ kd_data K = data.
Proof.
  unfold kde_init. destruct (Nat.eqb _ 0); [discriminate|]. destruct (check_weights _ w) as [ow|]; [|discriminate]. cbn [bind].
  destruct (set_bandwidth _ _ _ _ _) as [bw|]; [|discriminate]. cbn [bind]. intros H; injection H as <-. repeat split.
Qed.

(** Data in an array, later changed: the answers are those of a KDE constructed from the new data with the old covariance ... *)
Lemma alias_density : forall n w b diag resc d neffa w' h w2 (prob : bool) pdim, held_init n true w b diag resc d neffa = (w', Ok h) -> length (w_data w2) = length (w_data w) ->
  (w_cov w = None -> np_cov (wdata_of (w_data w) (kd_weights (he_kde h))) <> None) ->
  exists C K', (w_cov w = Some C \/ w_cov w = None /\ np_cov (wdata_of (w_data w) (kd_weights (he_kde h))) = Some C)
    /\ kde_init n (w_data w2) (w_weights w) b diag resc d (Some C) (Some (kd_neff (he_kde h))) None = Ok K'
    /\ snd (held_density h w2 prob pdim) = snd (density_call K' prob pdim (seen_refl h w2) PNone)
    /\ forall size keep chunk rn ix, snd (held_resample h w2 size keep chunk rn ix) = snd (kernel_resample (kd_kernel K') n (w_data w2) (kd_weights K') size keep chunk (seen_refl h w2) rn ix).
Proof.
  intros n w b diag resc d neffa w' h w2 prob pdim HI Hl Hc. destruct (held_inv _ _ _ _ _ _ _ _ _ _ HI) as (K & spec & arg' & -> & -> & HR & HK). cbn [he_kde] in *.
  destruct (init_with _ _ _ _ _ _ _ _ _ _ _ (w_data w2) None HK Hl Hc) as [C [HC HK']]. exists C, (with_data (w_data w2) None K).
  split; [exact HC|]. split; [exact HK'|]. split; [reflexivity|]. intros. destruct (init_reflect _ _ _ _ _ _ _ _ _ _ _ HK) as [_ [En _]].
  unfold held_resample. cbn [he_kde]. rewrite En. reflexivity.
Qed.
Lemma kept_iff n arg : refl_kept n arg = true <-> one_entry_each n arg.
Proof.
  unfold refl_kept, one_entry_each. split.
  - destruct arg as [| | | |k l]; intros H; try discriminate H. exists k, l. split; [reflexivity|]. intros -> E. rewrite E in H. discriminate H.
  - intros [k [l [-> H]]]. destruct (Nat.eqb_spec (length l) 2) as [E|]; [|reflexivity]. destruct (Nat.eqb_spec n 1) as [E'|]; [|reflexivity]. contradiction (H E' E).
Qed.
(** ... in a list: those of the original KDE. *)
Lemma alias_list : forall n w b diag resc d neffa w' h w2 (prob : bool) pdim, held_init n false w b diag resc d neffa = (w', Ok h) -> ~ one_entry_each n (w_refl w) ->
  snd (held_density h w2 prob pdim) = kde_density (he_kde h) prob pdim None PNone
  /\ forall size keep chunk rn ix, snd (held_resample h w2 size keep chunk rn ix) = snd (kde_resample (he_kde h) size keep chunk RNone rn ix).
Proof.
  intros n w b diag resc d neffa w' h w2 prob pdim HI Hk0. assert (Hk : refl_kept n (w_refl w) = false) by (apply Bool.not_true_iff_false; rewrite kept_iff; exact Hk0). clear Hk0. pose proof HI as HI0. destruct (held_inv _ _ _ _ _ _ _ _ _ _ HI) as (K & spec & arg' & -> & -> & HR & HK). cbn [he_kde] in *.
  destruct (init_reflect _ _ _ _ _ _ _ _ _ _ _ HK) as [Er [En Ed]].
  assert (HN : snd (kde_new n (w_data w) (w_weights w) b diag resc d (w_cov w) neffa (w_refl w)) = Ok K) by (unfold kde_new; rewrite HR; cbn [fst snd bind]; exact HK).
  assert (Hne : kd_data K <> []).
  { rewrite Ed. unfold kde_init in HK. destruct (w_data w); [discriminate HK|discriminate]. }
  unfold held_density, held_resample, kde_resample, seen_data, seen_refl, set_refl. cbn [he_data he_refl he_kde]. rewrite Hk. split.
  - destruct (kd_reflect K) as [r|] eqn:Ek.
    + destruct (kde_new_stored _ _ _ _ _ _ _ _ _ _ _ _ HN Ek) as [L1 [L2 _]].
      rewrite (density_call_embed (with_data (kd_data K) None K) prob pdim r Hne); [|cbn; rewrite En; exact L1|exact L2]. cbn [snd].
      rewrite (kde_density_stored K prob pdim r Ek). reflexivity.
    + cbn [fst snd]. transitivity (kde_density (with_data (kd_data K) None K) prob pdim None PNone); [reflexivity|]. destruct K; cbn in *. subst. reflexivity.
  - intros. reflexivity.
Qed.
(** Boundaries given as a list per parameter: the current contents of that list count. *)
Lemma alias_boundaries : forall n arr w b diag resc d neffa w' h w2 (prob : bool) pdim r, held_init n arr w b diag resc d neffa = (w', Ok h) -> one_entry_each n (w_refl w) ->
  length (w_data w2) = length (w_data w) -> w_refl w2 = embed r ->
  (length r = n -> (forall ob, In ob r -> ordered ob) ->
   snd (held_density h w2 prob pdim) = kde_density (with_data (seen_data h w2) None (he_kde h)) prob pdim (Some r) PNone)
  /\ (length r <> n -> length r <> 2%nat -> snd (held_density h w2 prob pdim) = Err ValueError).
Proof.
  intros n arr w b diag resc d neffa w' h w2 prob pdim r HI Hk Hl Hr. apply kept_iff in Hk. destruct (held_inv _ _ _ _ _ _ _ _ _ _ HI) as (K & spec & arg' & -> & -> & HR & HK). cbn [he_kde] in *.
  destruct (init_reflect _ _ _ _ _ _ _ _ _ _ _ HK) as [Er [En Ed]].
  assert (Hne : w_data w <> []) by (unfold kde_init in HK; destruct (w_data w); [discriminate HK|discriminate]).
  assert (Hs : seen_data (mkHeld K arr (refl_kept n (w_refl w))) w2 <> []).
  { unfold seen_data. cbn. destruct arr; [|congruence]. intros E. rewrite E in Hl. destruct (w_data w); [contradiction|discriminate]. }
  unfold held_density, seen_refl. cbn [he_refl he_kde fst snd]. rewrite Hk, Hr. split.
  - intros L1 L2. rewrite density_call_embed; [reflexivity|exact Hs|cbn; congruence|exact L2].
  - intros L1 L2. unfold density_call. cbn [resolve_params with_data kd_ndim kd_data]. rewrite En. unfold density_reflect, embed. rewrite map_length.
    apply Nat.eqb_neq in L1, L2. rewrite L1, L2. cbn [orb andb]. rewrite Bool.andb_false_r. reflexivity.
Qed.
Lemma embed_entry_check data ii ob : data <> [] -> ordered ob -> check_entry KList data ii (embed_entry ob) = (embed_entry ob, Ok tt).
Proof.
  intros Hd Ho. destruct ob as [[a b]|]; [|reflexivity]. cbn [embed_entry check_entry].
  rewrite !fill_true_eq by exact Hd. assert (T : forall o, is_true (opt_v o) = false) by (intros [|]; reflexivity). rewrite !T.
  assert (E : order_check (opt_v a) (opt_v b) = Ok tt) by (apply order_check_iff; rewrite !v_opt_opt_v; exact Ho). rewrite E. reflexivity.
Qed.
Lemma embed_loop data : data <> [] -> forall r ii, (forall ob, In ob r -> ordered ob) -> check_loop KList data ii (map embed_entry r) = (map embed_entry r, Ok tt).
Proof.
  intros Hd. induction r as [|ob r IH]; intros ii Ho; [reflexivity|]. cbn [map check_loop]. rewrite embed_entry_check by (try exact Hd; apply Ho; left; reflexivity).
  rewrite IH by (intros; apply Ho; right; assumption). reflexivity.
Qed.
Lemma embed_loop_true data m M : data <> [] -> forall r1 ii r2, (forall ob, In ob r1 -> ordered ob) -> (forall ob, In ob r2 -> ordered ob) ->
  is_min data (ii + length r1) m -> is_max data (ii + length r1) M -> m * (1 - num_pad) < M * (1 + num_pad) ->
  check_loop KList data ii (map embed_entry r1 ++ EAtom (VBool true) :: map embed_entry r2)
  = (map embed_entry (r1 ++ Some (Some (m * (1 - num_pad)), Some (M * (1 + num_pad))) :: r2), Ok tt).
Proof.
  intros Hd. induction r1 as [|ob r1 IH]; intros ii r2 H1 H2 Hm HM Hlt.
  - cbn [List.length] in Hm, HM. rewrite Nat.add_0_r in Hm, HM. cbn [map app check_loop check_entry is_true]. destruct data as [|d0 data]; [contradiction|].
    unfold auto_lo, auto_hi. rewrite (is_min_unique _ _ _ _ (is_min_lmin _ ii Hd) Hm), (is_max_unique _ _ _ _ (is_max_lmax _ ii Hd) HM).
    assert (E : order_check (VNum (m * (1 - num_pad))) (VNum (M * (1 + num_pad))) = Ok tt) by (apply order_check_iff; exact Hlt).
    rewrite E, (embed_loop _ Hd) by exact H2. reflexivity.
  - cbn [map app check_loop]. rewrite embed_entry_check by (try exact Hd; apply H1; left; reflexivity).
    cbn [List.length] in Hm, HM. rewrite (IH (S ii)); [reflexivity|intros; apply H1; right; assumption|exact H2| | |exact Hlt]; rewrite Nat.add_succ_comm; assumption.
Qed.
(** True written into that list later: the first evaluation replaces it by the padded limits of the current data. *)
Lemma alias_frozen : forall n w b diag resc d neffa w' h w2 (prob : bool) pdim r1 r2 m M, held_init n true w b diag resc d neffa = (w', Ok h) -> one_entry_each n (w_refl w) ->
  length (w_data w2) = length (w_data w) -> w_refl w2 = RSeq KList (map embed_entry r1 ++ EAtom (VBool true) :: map embed_entry r2) ->
  (length r1 + S (length r2) = n)%nat -> (forall ob, In ob (r1 ++ r2) -> ordered ob) ->
  is_min (w_data w2) (length r1) m -> is_max (w_data w2) (length r1) M -> m * (1 - num_pad) < M * (1 + num_pad) ->
  let r := r1 ++ Some (Some (m * (1 - num_pad)), Some (M * (1 + num_pad))) :: r2 in
  held_density h w2 prob pdim = (mkW (w_data w2) (w_weights w2) (w_cov w2) (embed r), kde_density (with_data (w_data w2) None (he_kde h)) prob pdim (Some r) PNone)
  /\ (forall w3 pr pd, length (w_data w3) = length (w_data w) -> w_refl w3 = embed r -> fst (held_density h w3 pr pd) = w3).
Proof.
  intros n w b diag resc d neffa w' h w2 prob pdim r1 r2 m M HI Hk Hl Hr Hn Ho Hm HM Hlt r. pose proof Hk as Hk0. apply kept_iff in Hk.
  destruct (held_inv _ _ _ _ _ _ _ _ _ _ HI) as (K & spec & arg' & -> & -> & HR & HK). cbn [he_kde] in *.
  destruct (init_reflect _ _ _ _ _ _ _ _ _ _ _ HK) as [Er [En Ed]].
  assert (Hne : w_data w <> []) by (unfold kde_init in HK; destruct (w_data w); [discriminate HK|discriminate]).
  assert (Hs : forall w3, length (w_data w3) = length (w_data w) -> w_data w3 <> []) by (intros w3 E3 E; rewrite E in E3; destruct (w_data w); [contradiction|discriminate E3]).
  assert (Ord : forall ob, In ob r -> ordered ob).
  { intros ob Hb. unfold r in Hb. apply in_app_iff in Hb. destruct Hb as [Hb|[<-|Hb]]; [apply Ho, in_app_iff; auto|exact Hlt|apply Ho, in_app_iff; auto]. }
  assert (Lr : length r = n) by (unfold r; rewrite app_length; cbn [List.length]; lia).
  split.
  - unfold held_density, seen_refl, seen_data, set_refl. cbn [he_refl he_kde he_data fst snd]. rewrite Hk, Hr.
    unfold density_call. cbn [resolve_params with_data kd_ndim kd_data]. cbv zeta. rewrite En.
    set (l := map embed_entry r1 ++ EAtom (VBool true) :: map embed_entry r2).
    assert (Ll : length l = n) by (unfold l; rewrite app_length; cbn [List.length]; rewrite !map_length; lia).
    assert (Hg : goods l = true).
    { apply forallb_forall. intros e He. unfold l in He. apply in_app_iff in He.
      assert (G : forall r' : reflspec, In e (map embed_entry r') -> entry_good e = Some true).
      { intros r' Hi. apply in_map_iff in Hi. destruct Hi as [[[a b']|] [<- _]]; reflexivity. }
      destruct He as [He|[<-|He]]; [rewrite (G _ He)| |rewrite (G _ He)]; reflexivity. }
    assert (E : density_reflect n n (w_data w2) (RSeq KList l) = (embed r, Ok (Some r))).
    { unfold density_reflect. rewrite Ll, Nat.eqb_refl. cbn [orb]. unfold check_reflect. rewrite Ll, Nat.eqb_refl. cbn [negb].
      assert (C : andb (Nat.eqb n 2) (Nat.eqb n 1) = false) by (destruct (Nat.eqb_spec n 2), (Nat.eqb_spec n 1); try reflexivity; lia).
      rewrite C, Hg. cbn [negb]. unfold l. rewrite (embed_loop_true (w_data w2) m M (Hs w2 Hl) r1 0 r2); try assumption; try (intros; apply Ho, in_app_iff; auto).
      fold r. cbn [fst snd bind]. unfold embed. f_equal. do 2 f_equal. rewrite map_map. rewrite <- (map_id r) at 2. apply map_ext.
      intros [[a b']|]; cbn; [rewrite !v_opt_opt_v|]; reflexivity. }
    rewrite E. cbn [fst snd bind]. reflexivity.
  - intros w3 pr pd L3 E3. unfold held_density, seen_refl, seen_data, set_refl. cbn [he_refl he_kde he_data fst snd]. rewrite Hk, E3.
    rewrite (density_call_embed (with_data (w_data w3) None K) pr pd r); [|apply Hs; exact L3|cbn; rewrite En; exact Lr|exact Ord]. cbn [fst]. destruct w3; cbn in *; congruence.
Qed.
(** Changing the weights or the covariance has no effect. *)
Lemma alias_copies : forall h w2 ws C (prob : bool) pdim size keep chunk rn ix, let w3 := mkW (w_data w2) ws C (w_refl w2) in
  snd (held_density h w3 prob pdim) = snd (held_density h w2 prob pdim) /\ snd (held_resample h w3 size keep chunk rn ix) = snd (held_resample h w2 size keep chunk rn ix).
Proof. intros. split; reflexivity. Qed.

(* ------------------------------------------------------------ cached values *)
Lemma cdf_cached o st st' y v : cdf_st o st false false y = (Ok v, st') -> exists c, os_cdf st' = Some c.
Proof.
  unfold cdf_st. destruct (os_cdf st) as [c|] eqn:E; [intros H; injection H as _ <-; eauto|]. destruct (points_st o st) as [[g|e] st1]; [|discriminate].
  destruct (density_st o st1 true (length g) None PNone) as [rf st2]. destruct (do f <- rf ;; _) as [c|e]; [|discriminate]. destruct (negb (forallb ascending g)); [discriminate|].
  intros H. injection H as _ <-. cbn. eauto.
Qed.
(** Once evaluated, the cumulative distribution stays that of the old data. *)
Lemma alias_cdf : forall o st y v st' data' x, cdf_st o st false false y = (Ok v, st') -> cdf_st (obj_with data' o) st' false false x = cdf_st o st' false false x.
Proof. intros o st y v st' data' x H. destruct (cdf_cached _ _ _ _ _ H) as [c Hc]. unfold cdf_st. rewrite Hc. reflexivity. Qed.
Lemma alias_points : forall o st g st' data', points_st o st = (Ok g, st') -> points_st (obj_with data' o) st' = (Ok g, st').
Proof.
  intros o st g st' data' H. unfold points_st in H.
  destruct (os_points st) as [e|g0] eqn:Ep; destruct (os_check st) eqn:Ec; try (destruct (kde_points _ _ _ _ _) as [g1|]; [|discriminate]; injection H as <- <-; reflexivity).
  injection H as <- <-. unfold points_st. rewrite Ep, Ec. reflexivity.
Qed.
(** ... that is, of the KDE as constructed. *)
Lemma alias_cdf_old : forall o y v st' data' x, cdf_st o (ostate0 o) false false y = (Ok v, st') ->
  fst (cdf_st (obj_with data' o) st' false false x) = do g <- kde_points (ob_sorter o) (ob_kde o) (ob_bw o) (ob_ext o) (ob_edges o) ;; kde_cdf (ob_kde o) g false false x.
Proof.
  intros o y v st' data' x H. rewrite (alias_cdf o (ostate0 o) y v st' data' x H). destruct (cdf_good o (ostate0 o) false false y (ogood0 o)) as [_ G]. rewrite H in G. cbn [snd] in G.
  destruct (cdf_good o st' false false x G) as [E _]. exact E.
Qed.
(** If only the points were computed before: the density of the new data, with the old covariance, on the old grid. *)
Lemma alias_cdf_mixed : forall o g st' data' x, points_st o (ostate0 o) = (Ok g, st') ->
  fst (cdf_st (obj_with data' o) st' false false x) = kde_cdf (with_data data' (kd_reflect (ob_kde o)) (ob_kde o)) g false false x.
Proof.
  intros o g st' data' x H. destruct (points_good o (ostate0 o) (ogood0 o)) as [_ G]. rewrite H in G. cbn [snd] in G.
  assert (HP : points_st (obj_with data' o) st' = (Ok g, st')) by (apply (alias_points _ _ _ _ data' H)).
  assert (HC : os_cdf st' = None).
  { unfold points_st in H. cbn [ostate0 os_points os_check] in H. destruct (kde_points _ _ _ _ _); [|discriminate]. injection H as _ <-. reflexivity. }
  unfold cdf_st. rewrite HC, HP.
  set (K := with_data data' (kd_reflect (ob_kde o)) (ob_kde o)).
  assert (ED : fst (density_st (obj_with data' o) st' true (length g) None PNone) = kde_density K true (length g) None PNone).
  { unfold density_st, kde_density. cbn [obj_with ob_kde resolve_params bind]. fold K. cbv zeta. destruct (match _ with Some r => negb _ | None => false end); [reflexivity|].
    destruct (kd_kernel K) as [kern|] eqn:Ek; [|reflexivity]. destruct G as [G _]. assert (GK : kgood kern (os_kernel st')) by (apply G; exact Ek).
    match goal with |- context [kernel_density_st kern ?s ?a ?b ?c ?d ?e ?f] => destruct (kernel_cache kern s a b c d e f GK) as [E1 _]; destruct (kernel_density_st kern s a b c d e f) as [r kst] end.
    cbn [fst] in *. rewrite E1. reflexivity. }
  destruct (density_st (obj_with data' o) st' true (length g) None PNone) as [rf st2]. cbn [fst] in ED. rewrite ED. unfold kde_cdf, density_grid.
  destruct (kde_density K true (length g) None PNone) as [f|e]; cbn [bind]; [|reflexivity]. destruct (cumtrapz _ _ _ _) as [c|e]; cbn [bind]; [|reflexivity].
  destruct (negb _); [reflexivity|]. cbn [fst]. unfold cdf_apply. cbn [fst snd]. destruct (Reqb (nd_max c) 0); reflexivity.
Qed.

(* ------------------------------------------------------------ counterexample *)
Definition pair_data (a b : R) : list pt := [pt1 a; pt1 b].
Definition pair_world (a b : R) : world := mkW (pair_data a b) WNone None RNone.
Lemma pair_cov a b : np_cov (wdata_of (pair_data a b) None) = Some (fun i j => sumf (fun dw : pt * R => snd dw * (fst dw i - wmean (wdata_of (pair_data a b) None) i) * (fst dw j - wmean (wdata_of (pair_data a b) None) j)) (wdata_of (pair_data a b) None) / 1).
Proof.
  unfold np_cov. assert (E : cov_fact (wdata_of (pair_data a b) None) = 1) by (unfold cov_fact, sumf; cbn; field). rewrite E. destruct (Rleb_spec 1 0); [lra|]. reflexivity.
Qed.
Definition pair_kde (a b : R) (d : dist) (C : mat) : kde := mkKDE 1 (pair_data a b) None 2 (Some (mkKernel d 1 C)) None.
Lemma pair_init a b d : exists C, kde_init 1 (pair_data a b) WNone (BwAtom (BNum 1)) false None d None None None = Ok (pair_kde a b d C) /\ C O O = (b - a) * (b - a) / 2.
Proof.
  eexists. split.
  - unfold kde_init. cbn [length pair_data Nat.eqb check_weights bind set_bandwidth compute_bandwidth]. fold (pair_data a b). rewrite pair_cov. unfold kernel_init. rewrite kernel_matrix_1.
    unfold pair_kde, neff_of. cbn [INR]. reflexivity.
  - unfold wmean, sumf, pair_data, wdata_of, wlist. cbn. unfold pt1. field.
Qed.
Lemma pair_built a b d C : kde_init 1 (pair_data a b) WNone (BwAtom (BNum 1)) false None d None None None = Ok (pair_kde a b d C) -> 0 < C O O ->
  built_kde 1 (pair_data a b) [1; 1] d C None (pair_kde a b d C).
Proof.
  intros H HC. destruct (posdef_1 C HC) as [Hs Hp]. split; [|split; [reflexivity|split; assumption]]. exists WNone, (BwAtom (BNum 1)), false, None, None, None. split; [left; split; reflexivity|exact H].
Qed.
Lemma alias_refuted : exists w w1 w2 h h2 w3 f g x, held_init 1 true w (BwAtom (BNum 1)) false None Box None = (w1, Ok h)
  /\ length (w_data w2) = length (w_data w) /\ held_init 1 true w2 (BwAtom (BNum 1)) false None Box None = (w3, Ok h2)
  /\ snd (held_density h w2 true 1) = Ok f /\ snd (held_density h2 w2 true 1) = Ok g /\ f x = 0 /\ 0 < g x.
Proof.
  destruct (pair_init 0 1 Box) as [C1 [H1 E1]]. destruct (pair_init 0 2 Box) as [C2 [H2 E2]].
  assert (B2 : built_kde 1 (pair_data 0 2) [1; 1] Box C2 None (pair_kde 0 2 Box C2)) by (apply pair_built; [exact H2|rewrite E2; lra]).
  assert (B1 : built_kde 1 (pair_data 0 2) [1; 1] Box C1 None (pair_kde 0 2 Box C1)).
  { split; [|split; [reflexivity|apply posdef_1; rewrite E1; lra]]. exists WNone, (BwAtom (BNum 1)), false, None, (Some C1), None. split; [left; split; reflexivity|].
    unfold kde_init. cbn [length pair_data Nat.eqb check_weights bind set_bandwidth compute_bandwidth]. unfold kernel_init. rewrite kernel_matrix_1. unfold pair_kde, neff_of. cbn [INR]. reflexivity. }
  assert (I : forall a b C, kde_init 1 (pair_data a b) WNone (BwAtom (BNum 1)) false None Box None None None = Ok (pair_kde a b Box C) ->
     held_init 1 true (pair_world a b) (BwAtom (BNum 1)) false None Box None = (pair_world a b, Ok (mkHeld (pair_kde a b Box C) true false))).
  { intros a b C H. unfold held_init, kde_new. cbn [pair_world w_data w_weights w_cov w_refl check_reflect fst snd bind refl_kept]. rewrite H. reflexivity. }
  destruct (density_plain_ex 1 (pair_data 0 2) [1; 1] Box C1 (pair_kde 0 2 Box C1) true B1) as [f0 [Hk1 Hf]].
  assert (HN : is_inverse 1 C2 (fun _ _ => / 2)).
  { intros i j Hi Hj. replace i with O by lia. replace j with O by lia. cbn [rsum]. rewrite E2. unfold ident. cbn. split; field. }
  destruct (top_textbook 1 (pair_data 0 2) [1; 1] Box C2 (pair_kde 0 2 Box C2) (fun _ _ => / 2) (le_n 1) B2 HN) as (Z & f2 & g2 & HZ & _ & Hf2 & Hg2 & V).
  exists (pair_world 0 1), (pair_world 0 1), (pair_world 0 2), (mkHeld (pair_kde 0 1 Box C1) true false), (mkHeld (pair_kde 0 2 Box C2) true false), (pair_world 0 2), (scaled true [1; 1] f0), g2, (pt1 3).
  split; [apply I, H1|]. split; [reflexivity|]. split; [apply I, H2|]. split; [exact Hf|]. split; [exact Hg2|]. split.
  - apply (top_finite_support 1 (pair_data 0 2) [1; 1] Box C1 (pair_kde 0 2 Box C1) true _ (pt1 3) O B1 eq_refl (le_n 1) Hf). intros p Hp. rewrite E1.
    assert (S : sqrt ((1 - 0) * (1 - 0) / 2) < 1) by (apply Rlt_le_trans with (sqrt 1); [apply sqrt_lt_1; lra|rewrite sqrt_1; lra]).
    destruct Hp as [<-|[<-|[]]]; unfold pt1; rewrite Rabs_right by lra; lra.
  - destruct (V (pt1 3)) as [V1 V2]. rewrite V2, V1. unfold spec_sum, sumf, pair_data, quad, psub, pt1. cbn.
    match goal with |- 0 < ?A / Z / ?B => assert (PA : 0 < A); [|assert (PB : 0 < B) by lra; apply Rdiv_lt_0_compat; [apply Rdiv_lt_0_compat; assumption|assumption]] end.
    repeat destruct (Rle_dec _ _); lra.
Qed.


(** KDE.resample in other units (C154). *)
From Coq Require Import ZArith FunctionalExtensionality.
From Verif Require Import Base ModelLinAlg ModelKernels ModelKDE ModelReflect ModelInterp ModelResample SpecReflect SpecKDE SpecSampleUnits.
From Verif Require Import ProofAffine ProofKDE ProofReflectArg ProofExamples SpecResample ProofResample.
Open Scope R_scope.
Notation length := List.length.

Lemma color_scale n e U z : color n (colscale e U) z = fun i => e i * color n U z i.
Proof. extensionality i. unfold color, colscale. rewrite <- rsum_scal. apply rsum_ext. intros l Hl. ring. Qed.
Lemma zero_dims_scale ps (e : nat -> R) z : zero_dims ps (fun i => e i * z i) = fun i => e i * zero_dims ps z i.
Proof. extensionality i. unfold zero_dims. destruct (existsb (Nat.eqb i) ps); ring. Qed.
Lemma add_scaled s c x z : padd (aff s c x) (fun i => c i * z i) = aff s c (padd x z).
Proof. extensionality i. unfold padd, aff. ring. Qed.
Lemma resample_clear_aff d n M data w keep size rn ix s c : (forall i, 0 < c i) -> (forall j, (ix j < length data)%nat) ->
  resample_clear d n (mscale c M) (map (aff s c) data) w keep size rn ix = do l <- resample_clear d n M data w keep size rn ix ;; Ok (map (aff s c) l).
Proof.
  intros Hc Hix. unfold resample_clear, add_cov. rewrite chol_scale by exact Hc. destruct (chol n M) as [U|]; cbn [option_map bind]; [|reflexivity].
  destruct (forallb _ (keep_dims n keep)); cbn [negb]; [|reflexivity]. rewrite map_length. destruct (choice_ok (length data) size w); cbn [negb bind]; [|reflexivity]. f_equal.
  set (js := seq 0 size). clearbody js. rewrite !map_map. induction js as [|j js IH]; [reflexivity|]. cbn [map combine fst snd]. rewrite IH. f_equal.
  rewrite color_scale, zero_dims_scale. rewrite (nth_indep _ pt0 (aff s c pt0)) by (rewrite map_length; apply Hix). rewrite map_nth. apply add_scaled.
Qed.
Lemma nth_aff_none s c r p ii : (nth p (aff_refl s c ii r) None = None <-> nth p r None = None).
Proof.
  revert p ii. induction r as [|[b|] r IH]; intros p ii; destruct p as [|p]; cbn; try (split; intros; reflexivity || discriminate); try apply IH; tauto.
Qed.
Lemma zero_rows_aff s c ps n : forall refl M, zero_rows ps n (aff_refl s c 0 refl) (mscale c M) = do M1 <- zero_rows ps n refl M ;; Ok (mscale c M1).
Proof.
  induction ps as [|p ps IH]; intros refl M; cbn [zero_rows]; [reflexivity|]. destruct (negb (Nat.ltb p n)); [reflexivity|].
  replace (fun i j => if (Nat.eqb i p || Nat.eqb j p)%bool then 0 else mscale c M i j) with (mscale c (fun i j => if (Nat.eqb i p || Nat.eqb j p)%bool then 0 else M i j)).
  2: { extensionality i. extensionality j. unfold mscale. destruct (Nat.eqb i p || Nat.eqb j p)%bool; ring. }
  pose proof (nth_aff_none s c refl p 0) as E. destruct (nth p (aff_refl s c 0 refl) None), (nth p refl None); try reflexivity.
  - destruct E as [_ E]. discriminate (E eq_refl).
  - destruct E as [E _]. discriminate (E eq_refl).
  - apply IH.
Qed.
Lemma mirror_pt_aff s c ii loc x : mirror_pt ii (s ii + c ii * loc) (aff s c x) = aff s c (mirror_pt ii loc x).
Proof. extensionality k. unfold mirror_pt, aff. destruct (Nat.eqb_spec k ii) as [->|]; [ring|reflexivity]. Qed.
Lemma mirrors_aff s c data : forall refl ii, all_mirrors ii (aff_refl s c ii refl) (map (aff s c) data) = map (aff s c) (all_mirrors ii refl data).
Proof.
  assert (G : forall ii loc, map (mirror_pt ii (s ii + c ii * loc)) (map (aff s c) data) = map (aff s c) (map (mirror_pt ii loc) data)).
  { intros ii loc. rewrite !map_map. apply map_ext. intros x. apply mirror_pt_aff. }
  induction refl as [|[[[lo|] [hi|]]|] refl IH]; intros ii; cbn [all_mirrors aff_refl mirrors_of option_map aff_bnd fst snd]; rewrite ?IH, ?map_app, ?G; cbn [map]; rewrite ?app_nil_l; reflexivity.
Qed.
Lemma copies_aff s c refl ii : copies (aff_refl s c ii refl) = copies refl.
Proof. revert ii. induction refl as [|[[[lo|] [hi|]]|] refl IH]; intros ii; cbn in *; rewrite ?IH; reflexivity. Qed.
Lemma inside_aff s c x : (forall i, 0 < c i) -> forall refl ii, inside_from ii (aff_refl s c ii refl) (aff s c x) = inside_from ii refl x.
Proof.
  intros Hc. induction refl as [|[[[lo|] [hi|]]|] refl IH]; intros ii; cbn [inside_from aff_refl in_bnd option_map aff_bnd fst snd]; rewrite ?IH; unfold aff; rewrite ?Rltb_aff by apply Hc; reflexivity.
Qed.
Lemma filter_aff s c refl l : (forall i, 0 < c i) -> filter (inside (aff_refl s c 0 refl)) (map (aff s c) l) = map (aff s c) (filter (inside refl) l).
Proof.
  intros Hc. induction l as [|x l IH]; [reflexivity|]. cbn [map filter]. assert (E : inside (aff_refl s c 0 refl) (aff s c x) = inside refl x) by (apply inside_aff; exact Hc). rewrite E. destruct (inside refl x); cbn [map]; rewrite IH; reflexivity.
Qed.
Lemma filter_pairs_aff s c refl l w : (forall i, 0 < c i) -> map snd (filter (fun xw : pt * R => inside (aff_refl s c 0 refl) (fst xw)) (combine (map (aff s c) l) w)) = map snd (filter (fun xw : pt * R => inside refl (fst xw)) (combine l w)).
Proof.
  intros Hc. revert w. induction l as [|x l IH]; intros [|v w]; try reflexivity. cbn [map combine filter fst]. assert (E : inside (aff_refl s c 0 refl) (aff s c x) = inside refl x) by (apply inside_aff; exact Hc). rewrite E. destruct (inside refl x); cbn [map snd]; rewrite IH; reflexivity.
Qed.
Lemma reject_loop_aff s c trial trial' refl n size chunk cs : (forall i, 0 < c i) -> (forall t k, trial' t k = do l <- trial t k ;; Ok (map (aff s c) l)) ->
  forall fuel cnt draw acc, reject_loop trial' (aff_refl s c 0 refl) n size chunk cs fuel cnt draw (map (aff s c) acc)
  = do r <- reject_loop trial refl n size chunk cs fuel cnt draw acc ;; Ok (fst r, map (aff s c) (snd r)).
Proof.
  intros Hc Ht. induction fuel as [|fuel IH]; intros cnt draw acc; cbn [reject_loop]; [reflexivity|]. rewrite map_length. destruct (Nat.ltb (length acc) size); [|reflexivity].
  rewrite Ht. destruct (trial cnt draw) as [tr|e]; cbn [bind]; [|reflexivity]. rewrite filter_aff by exact Hc. rewrite firstn_map, <- map_app, map_length. apply IH.
Qed.
Lemma resample_reflect_aff d n M data w refl keep chunk size rn ix s c : (forall i, 0 < c i) -> (forall t j, (ix t j < length (centres (Some refl) data))%nat) ->
  resample_reflect d n (mscale c M) (map (aff s c) data) w (aff_refl s c 0 refl) keep chunk size rn ix
  = do r <- resample_reflect d n M data w refl keep chunk size rn ix ;; Ok (fst r, map (aff s c) (snd r)).
Proof.
  intros Hc Hix. unfold resample_reflect, cov_keep_vars. rewrite zero_rows_aff. destruct (zero_rows (keep_dims n keep) n refl M) as [M1|e]; cbn [bind]; [|reflexivity].
  unfold reflect_data, truncate. cbn [fst snd]. rewrite mirrors_aff, <- map_app, filter_aff, map_length, copies_aff by exact Hc.
  set (D := filter (inside refl) (data ++ all_mirrors 0 refl data)) in *.
  set (W := match match w with None => None | Some w => Some (normalise (w ++ repeat_list (copies refl) w)) end with None => None | Some w0 => Some (normalise (map snd (filter (fun xw => inside (aff_refl s c 0 refl) (fst xw)) (combine (map (aff s c) (data ++ all_mirrors 0 refl data)) w0)))) end).
  set (W0 := match match w with None => None | Some w => Some (normalise (w ++ repeat_list (copies refl) w)) end with None => None | Some w0 => Some (normalise (map snd (filter (fun xw => inside refl (fst xw)) (combine (data ++ all_mirrors 0 refl data) w0)))) end).
  assert (EW : W = W0) by (unfold W, W0; destruct w as [w|]; [rewrite filter_pairs_aff by exact Hc|]; reflexivity). rewrite EW.
  destruct (Nat.eqb (length D) 0); [reflexivity|]. destruct (andb (Nat.eqb chunk 0) (negb (Nat.eqb size 0))); [reflexivity|].
  pose proof (reject_loop_aff s c (fun t k => resample_clear d n M1 D W0 KeepNone k (rn t) (ix t)) (fun t k => resample_clear d n (mscale c M1) (map (aff s c) D) W0 KeepNone k (rn t) (ix t)) refl n size chunk (snd (chunking size chunk)) Hc
    (fun t k => resample_clear_aff d n M1 D W0 KeepNone k (rn t) (ix t) s c Hc (Hix t)) (max_iter * fst (chunking size chunk)) 0 (snd (chunking size chunk)) []) as HL.
  cbn [map] in HL. rewrite HL. destruct (reject_loop _ refl n size chunk _ _ _ _ _) as [r|e]; cbn [bind fst snd]; [|reflexivity]. rewrite map_length. destruct (Nat.ltb (length (snd r)) size); reflexivity.
Qed.
Lemma ordered_aff s c refl ii : (forall i, 0 < c i) -> (forall ob, In ob refl -> ordered ob) -> forall ob, In ob (aff_refl s c ii refl) -> ordered ob.
Proof.
  intros Hc. revert ii. induction refl as [|o refl IH]; intros ii Ho ob Hin; [destruct Hin|]. cbn [aff_refl] in Hin. destruct Hin as [<-|Hin].
  - specialize (Ho o (or_introl eq_refl)). destruct o as [[[lo|] [hi|]]|]; cbn in *; try exact I. pose proof (Hc ii). nra.
  - apply (IH (S ii)); [|exact Hin]. intros o' H. apply Ho. right. exact H.
Qed.
Lemma init_data n data w b diag resc d neffa refl K : kde_init n data w b diag resc d None neffa refl = Ok K -> kd_data K = data /\ kd_reflect K = refl /\ data <> [].
Proof.
  unfold kde_init. destruct (Nat.eqb_spec (length data) 0) as [|Hd]; [discriminate|]. destruct (check_weights _ _); cbn [bind]; [|discriminate]. destruct (set_bandwidth _ _ _ _ _); cbn [bind]; [|discriminate].
  intros [= <-]. cbn. repeat split. intros ->. apply Hd. reflexivity.
Qed.
Theorem sample_units n data w b diag resc d neffa refl s c K K' size keep chunk rn ix : (forall i, 0 < c i) -> kept_boundaries n refl -> in_range ix refl data ->
  kde_init n data w b diag resc d None neffa refl = Ok K ->
  kde_init n (map (aff s c) data) w b diag resc d None neffa (option_map (aff_refl s c 0) refl) = Ok K' ->
  snd (kde_resample K' size keep chunk RNone rn ix) = do l <- snd (kde_resample K size keep chunk RNone rn ix) ;; Ok (map (aff s c) l).
Proof.
  intros Hc Hr Hix HK HK'. pose proof (kde_init_aff n data w b diag resc d neffa refl s c Hc) as HR. rewrite HK, HK' in HR. cbn [res_rel] in HR.
  destruct HR as (En & En' & Ed & Ew & _ & Hk & Er). destruct (init_data _ _ _ _ _ _ _ _ _ _ HK) as (Edat & Erefl & Hne).
  unfold kde_resample. cbn [snd]. rewrite En, En', Ew, Er, Erefl, Ed, Edat. unfold kernel_resample. cbn [snd]. rewrite map_length.
  set (sz := match size with None => length data | Some s0 => s0 end).
  assert (Hne' : map (aff s c) data <> []) by (intros E; apply map_eq_nil in E; exact (Hne E)).
  destruct refl as [r|]; cbn [option_map].
  - destruct Hr as [Hl Ho]. rewrite (recheck n data r Hne Hl Ho). rewrite (recheck n (map (aff s c) data) (aff_refl s c 0 r) Hne') by (try (rewrite aff_refl_length; exact Hl); apply ordered_aff; assumption). cbn [snd bind].
    destruct Hk as (d0 & M & [[-> ->]|[-> ->]]); [|reflexivity]. cbn [k_dist k_matrix]. rewrite (resample_reflect_aff d0 n M data (kd_weights K) r keep chunk sz rn ix s c Hc Hix).
    destruct (resample_reflect d0 n M data (kd_weights K) r keep chunk sz rn ix) as [[t l]|e]; reflexivity.
  - cbn [check_reflect snd bind]. destruct Hk as (d0 & M & [[-> ->]|[-> ->]]); [|reflexivity]. cbn [k_dist k_matrix]. apply resample_clear_aff; [exact Hc|exact (Hix O)].
Qed.
Theorem sample_units_plain n data w b diag resc d neffa refl s c K K' size keep chunk rn ix : (forall i, 0 < c i) -> in_range ix None data ->
  kde_init n data w b diag resc d None neffa refl = Ok K ->
  kde_init n (map (aff s c) data) w b diag resc d None neffa (option_map (aff_refl s c 0) refl) = Ok K' ->
  snd (kde_resample K' size keep chunk RFalse rn ix) = do l <- snd (kde_resample K size keep chunk RFalse rn ix) ;; Ok (map (aff s c) l).
Proof.
  intros Hc Hix HK HK'. pose proof (kde_init_aff n data w b diag resc d neffa refl s c Hc) as HR. rewrite HK, HK' in HR. cbn [res_rel] in HR.
  destruct HR as (En & En' & Ed & Ew & _ & Hk & _). destruct (init_data _ _ _ _ _ _ _ _ _ _ HK) as (Edat & _ & _).
  unfold kde_resample. cbn [snd]. rewrite En, En', Ew, Ed, Edat. unfold kernel_resample. cbn [check_reflect snd bind]. rewrite map_length.
  destruct Hk as (d0 & M & [[-> ->]|[-> ->]]); [|reflexivity]. cbn [k_dist k_matrix]. apply resample_clear_aff; [exact Hc|exact (Hix O)].
Qed.

Lemma init_weights n data b diag resc d neffa refl K : kde_init n data WNone b diag resc d None neffa refl = Ok K -> kd_weights K = None.
Proof.
  unfold kde_init. destruct (Nat.eqb_spec (length data) 0) as [|Hd]; [discriminate|]. cbn [check_weights bind]. destruct (set_bandwidth _ _ _ _ _); cbn [bind]; [|discriminate].
  intros [= <-]. reflexivity.
Qed.
Definition wall2 : reflspec := [Some (Some (-1), None); None].
Definition ones : nat -> nat -> rnd := fun _ _ => mkRnd (fun _ => 1) (fun _ => 1) (fun _ _ => 1).
Lemma centres_wall : exists rest, centres (Some wall2) data2 = q00 :: rest.
Proof.
  unfold centres, data2. cbn [app filter]. assert (E : inside wall2 q00 = true).
  { unfold inside, wall2. cbn [inside_from in_bnd fst snd]. unfold q00. destruct (Rltb_spec (-1) 0); [reflexivity|lra]. }
  rewrite E. eexists. reflexivity.
Qed.
Lemma ex_sample_units : exists K K' x, kept_boundaries 2 (Some [Some (Some (-1), None); None]) /\ in_range (fun _ _ => O) (Some [Some (Some (-1), None); None]) data2
  /\ kde_init 2 data2 WNone BwNone false None Gaussian None None (Some [Some (Some (-1), None); None]) = Ok K
  /\ kde_init 2 (map (aff (fun _ => 3) (fun _ => 2)) data2) WNone BwNone false None Gaussian None None (Some [Some (Some (3 + 2 * -1), None); None]) = Ok K'
  /\ snd (kde_resample K (Some 1%nat) KeepNone 1 RNone (fun _ _ => mkRnd (fun _ => 1) (fun _ => 1) (fun _ _ => 1)) (fun _ _ => O)) = Ok [x] /\ 0 < x O
  /\ snd (kde_resample K' (Some 1%nat) KeepNone 1 RNone (fun _ _ => mkRnd (fun _ => 1) (fun _ => 1) (fun _ _ => 1)) (fun _ _ => O)) = Ok [fun i => 3 + 2 * x i].
Proof.
  fold wall2. fold ones. destruct centres_wall as [rest Erest].
  assert (Hb : kept_boundaries 2 (Some wall2)) by (split; [reflexivity|intros ob [<-|[<-|[]]]; exact I]).
  assert (Hix : in_range (fun _ _ => O) (Some wall2) data2) by (intros t j; rewrite Erest; cbn; lia).
  destruct (data2_ok_none Gaussian (Some wall2)) as (K & M & N & HK & Hk & HS & HP & _ & _ & Edat & En & Er & _).
  pose proof (init_weights _ _ _ _ _ _ _ _ _ HK) as Ew.
  assert (Hc : forall i : nat, 0 < (fun _ : nat => 2) i) by (intros; lra).
  pose proof (kde_init_aff 2 data2 WNone BwNone false None Gaussian None (Some wall2) (fun _ => 3) (fun _ => 2) Hc) as HR. rewrite HK in HR. 
  destruct (kde_init 2 (map (aff (fun _ => 3) (fun _ => 2)) data2) WNone BwNone false None Gaussian None None (option_map (aff_refl (fun _ => 3) (fun _ => 2) 0) (Some wall2))) as [K'|] eqn:HK'; [clear HR|contradiction].
  destruct (chol_posdef 2 M HS HP) as [U [HU [HU1 [HU2 _]]]].
  assert (E : snd (kde_resample K (Some 1%nat) KeepNone 1 RNone ones (fun _ _ => O)) = Ok [padd q00 (zero_dims [] (color 2 U (fun _ => 1)))]).
  { unfold kde_resample. cbn [snd]. rewrite Hk, Ew, Er, En, Edat. unfold kernel_resample. rewrite (recheck 2 data2 wall2) by (try discriminate; apply Hb). cbn [snd bind k_dist k_matrix].
    unfold resample_reflect, cov_keep_vars. cbn [keep_dims zero_rows bind]. unfold reflect_data, truncate. cbn [fst snd]. change (filter (inside wall2) (data2 ++ all_mirrors 0 wall2 data2)) with (centres (Some wall2) data2). rewrite Erest. cbn [length Nat.eqb andb negb].
    change (chunking 1 1) with (1%nat, 1%nat). cbn [fst snd]. change (max_iter * 1)%nat with 10%nat.
    set (x := padd q00 (zero_dims [] (color 2 U (fun _ => 1)))).
    assert (Ex : inside wall2 x = true).
    { unfold inside, wall2. cbn [inside_from in_bnd fst snd]. unfold x, padd, zero_dims, color, q00. cbn [existsb rsum]. pose proof (HU2 O ltac:(lia)). rewrite (HU1 1%nat 0%nat) by lia. destruct (Rltb_spec (-1) (0 + (0 + U O O * 1 + 0 * 1))); [reflexivity|lra]. }
    assert (Et : forall t, resample_clear Gaussian 2 M (q00 :: rest) None KeepNone 1 (ones t) (fun _ => O) = Ok [x]).
    { intros t. unfold resample_clear, add_cov. rewrite HU. reflexivity. }
    assert (EL : reject_loop (fun t k => resample_clear Gaussian 2 M (q00 :: rest) None KeepNone k (ones t) (fun _ => O)) wall2 2 1 1 1 10 0 1 [] = Ok (1%nat, [x])).
    { cbn [reject_loop length Nat.ltb Nat.leb]. rewrite Et. cbn [bind filter]. rewrite Ex. reflexivity. }
    rewrite EL. reflexivity. }
  exists K, K', (padd q00 (zero_dims [] (color 2 U (fun _ => 1)))). split; [exact Hb|]. split; [exact Hix|]. split; [exact HK|]. split; [exact HK'|]. split; [exact E|]. split.
  - unfold padd, zero_dims, color, q00. cbn [existsb rsum]. pose proof (HU2 O ltac:(lia)). rewrite (HU1 1%nat 0%nat) by lia. lra.
  - rewrite (sample_units 2 data2 WNone BwNone false None Gaussian None (Some wall2) (fun _ => 3) (fun _ => 2) K K' (Some 1%nat) KeepNone 1 ones (fun _ _ => O) Hc Hb Hix HK HK'), E. reflexivity.
Qed.

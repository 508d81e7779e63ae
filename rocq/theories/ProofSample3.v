(** Proofs about sample.py: construction of the sampler and the samples it returns. *)
From Coq Require Import ZArith Permutation.
From Verif Require Import Base ModelLinAlg ModelKernels ModelKDE ModelInterp ModelResample ModelUtils ModelNd ModelSample
  SpecUtils SpecNd SpecSample ProofInterp ProofUtils ProofUtils2 ProofUtils4 ProofNested ProofNd ProofNd2 ProofGrid ProofGrid2 ProofSample ProofSample2.
Open Scope R_scope.
Notation length := List.length.

Definition got {A} (d : A) (r : res A) : A := match r with Ok v => v | Err _ => d end.
Lemma mapM_got {A B} (d : B) (f : A -> res B) l : (forall x, In x l -> exists y, f x = Ok y) -> mapM f l = Ok (map (fun x => got d (f x)) l).
Proof.
  induction l as [|a l IH]; intros H; [reflexivity|]. cbn [mapM map]. destruct (H a (or_introl eq_refl)) as [y E]. rewrite E. cbn [bind got].
  rewrite IH by (intros x Hx; apply H; right; exact Hx). reflexivity.
Qed.
Lemma nth_map {A B} (f : A -> B) l i d d' : (i < length l)%nat -> nth i (map f l) d = f (nth i l d').
Proof. intros H. rewrite (nth_indep _ d (f d')) by (rewrite map_length; exact H). apply map_nth. Qed.

(* ------------------------------------------------------------ construction *)
Lemma good_len edges : good_edges edges -> forall n, In n (lens edges) -> (2 <= n)%nat.
Proof. intros [_ H] n Hn. unfold lens in Hn. apply in_map_iff in Hn. destruct Hn as [e [<- He]]. apply (H e He). Qed.
Lemma good_ne edges : good_edges edges -> forall x, In x edges -> x <> [].
Proof. intros [_ H] x Hx ->. specialize (H [] Hx). cbn in H. lia. Qed.
Lemma bin_shape_pos edges : good_edges edges -> forall n, In n (bin_shape edges) -> (0 < n)%nat.
Proof. intros [_ H] n Hn. unfold bin_shape in Hn. apply in_map_iff in Hn. destruct Hn as [e [<- He]]. specialize (H e He). lia. Qed.
Lemma size_pos sh : (forall n, In n sh -> (0 < n)%nat) -> (0 < size_of_shape sh)%nat.
Proof. induction sh as [|n sh IH]; intros H; cbn; [lia|]. specialize (IH (fun k Hk => H k (or_intror Hk))). specialize (H n (or_introl eq_refl)). unfold size_of_shape in IH. nia. Qed.
Lemma bins_lens edges : map (fun n => (n - 1)%nat) (lens edges) = bin_shape edges.
Proof. unfold lens, bin_shape. rewrite map_map. reflexivity. Qed.
Lemma shape_differs_same sh : shape_differs sh sh = false.
Proof.
  unfold shape_differs. rewrite Nat.eqb_refl. induction sh as [|n sh IH]; [reflexivity|]. cbn. rewrite Nat.eqb_refl. exact IH.
Qed.
Lemma mass_shape edges dens mass m : good_edges edges -> shp dens = lens edges -> bin_masses edges dens mass m -> shp m = bin_shape edges.
Proof.
  intros Hg Hs H. destruct mass as [m'|]; cbn in H; [tauto|]. destruct (mass_run dens edges Hs (good_ne _ Hg)) as (r & E & S & _). rewrite E in H. injection H as <-. exact S.
Qed.
Lemma check_ok ea edges dens mass m : edges_given ea edges -> good_edges edges -> shp dens = lens edges -> bin_masses edges dens mass m ->
  check_grid ea dens mass = Ok edges.
Proof.
  intros Hea Hg Hs Hm. unfold check_grid.
  assert (E0 : existsb (Nat.eqb 0) (lens edges) = false).
  { apply Bool.not_true_is_false. rewrite existsb_eqb_In. intros C. apply (good_len _ Hg) in C. lia. }
  assert (MS : forall m', mass = Some m' -> shape_differs (shp m') (map (fun n => (n - 1)%nat) (lens edges)) = false).
  { intros m' ->. destruct Hm as [-> Hm]. rewrite Hm, bins_lens. apply shape_differs_same. }
  destruct Hea as [->|[e [-> ->]]]; cbn [bind fst snd].
  - rewrite Hs, lens_length, Nat.eqb_refl. cbn [negb]. fold (lens edges). rewrite nats_eqb_refl. cbn [negb]. destruct mass as [m'|]; [|reflexivity].
    rewrite E0, MS by reflexivity. reflexivity.
  - rewrite Hs. change (length (lens [e])) with 1%nat. rewrite Nat.eqb_refl. cbn [bind fst snd]. change (length [e]) with 1%nat. rewrite Nat.eqb_refl. cbn [negb]. change [length e] with (lens [e]). rewrite nats_eqb_refl. cbn [negb]. destruct mass as [m'|]; [|reflexivity].
    rewrite E0, MS by reflexivity. reflexivity.
Qed.
Lemma cum_ok ord mass : (0 < size_of_shape (shp mass))%nat -> exists ic, data_to_cumulative ord mass = Ok ic.
Proof.
  intros H. unfold data_to_cumulative. rewrite <- flatten_length in H. destruct (flatten_nd mass) as [|a l]; [cbn in H; lia|]. eexists. reflexivity.
Qed.

Lemma grid_built ord pick ea edges dens mass sdens smass m : grid_case ea edges dens mass sdens smass m -> (forall a, shp (pick a) = shp a) ->
  exists G, make_grid ord pick ea dens mass sdens smass = Ok G /\ g_edges G = edges /\ g_dens G = dens /\ g_mass G = m /\ g_bins G = bin_shape edges /\ g_sdens G = sdens
  /\ (forall sd, sdens = Some sd -> exists sm, g_smass G = Some sm /\ shp sm = bin_shape edges /\ (smass = Some sm \/ smass = None /\ trapz_dens_to_mass sd edges None = Ok sm))
  /\ data_to_cumulative ord (pick m) = Ok (g_idx G, g_csum G).
Proof.
  intros (Hea & Hg & Hs & _ & Hm & _ & Hsd & Hsm) Hp. unfold make_grid. rewrite (check_ok _ _ _ _ _ Hea Hg Hs Hm). cbn [bind].
  assert (SM : shp m = bin_shape edges) by (eapply mass_shape; eassumption).
  replace (match mass with Some m0 => Ok m0 | None => trapz_dens_to_mass dens edges None end) with (Ok m) by (destruct mass as [m'|]; cbn in Hm; [destruct Hm as [-> _]; reflexivity|symmetry; exact Hm]).
  cbn [bind]. destruct (cum_ok ord (pick m)) as [[idx cs] Hc]; [rewrite Hp, SM; apply size_pos, bin_shape_pos, Hg|].
  assert (SMR : exists sm, match smass, sdens with None, Some sd => do r <- trapz_dens_to_mass sd edges None ;; Ok (Some r) | _, _ => Ok smass end = Ok sm
     /\ forall sd, sdens = Some sd -> exists s, sm = Some s /\ shp s = bin_shape edges /\ (smass = Some s \/ smass = None /\ trapz_dens_to_mass sd edges None = Ok s)).
  { destruct smass as [s|].
    - exists (Some s). split; [destruct sdens; reflexivity|]. intros sd _. exists s. split; [reflexivity|]. split; [apply Hsm; reflexivity|left; reflexivity].
    - destruct sdens as [sd|].
      + destruct (mass_run sd edges) as (r & E & S & _); [rewrite (Hsd sd eq_refl); exact Hs|apply good_ne, Hg|]. rewrite E. cbn [bind]. exists (Some r). split; [reflexivity|].
        intros sd' E'. injection E' as <-. exists r. split; [reflexivity|]. split; [exact S|right; split; [reflexivity|exact E]].
      + exists None. split; [reflexivity|]. intros sd C. discriminate C. }
  destruct SMR as (sm & -> & Hsms). cbn [bind]. rewrite Hc. cbn [bind fst snd]. eexists. split; [reflexivity|]. cbn. rewrite Hs, bins_lens. repeat split; try reflexivity. exact Hsms.
Qed.

(* ------------------------------------------------------------ number of samples *)
Lemma trunc_wants r n : INR n <= r < INR n + 1 -> trunc_int r = Z.of_nat n.
Proof.
  intros H. unfold trunc_int. pose proof (pos_INR n). destruct (Rleb_spec 0 r) as [_|C]; [|lra].
  assert (E : (Z.of_nat n + 1 = up r)%Z) by (apply tech_up; rewrite plus_IZR, <- INR_IZR_INZ; lra).
  unfold Int_part. lia.
Qed.

(* ------------------------------------------------------------ the samples *)
(** Relative slope of the density over the bin [idx] along dimension [d]. *)
Definition slope_of (dens : nda) (d : nat) (idx : list nat) : option R :=
  if Reqb (mean_nd dens) 0 then None
  else Some ((corner_sum dens d 1 idx - corner_sum dens d 0 idx) / 2 ^ (length (shp dens) - 1) / mean_nd dens).
Definition scalar_slope (sd : nda) (d : nat) (idx : list nat) : R := (corner_sum sd d 1 idx - corner_sum sd d 0 idx) / 2 ^ (length (shp sd) - 1).

Lemma flat_get_unravel g f : (f < size_of_shape (shp g))%nat -> flat_get g f = Ok (at_ g (unravel (shp g) f)).
Proof.
  intros H. unfold flat_get. rewrite (nth_error_nth' _ 0) by (rewrite flatten_length; exact H). f_equal. apply (flat_unravel g f H).
Qed.
Lemma corner_sum_scale a d s idx mu : corner_sum (map_nd (fun v => v / mu) a) d s idx = corner_sum a d s idx / mu.
Proof. unfold corner_sum, map_nd. cbn [shp at_]. unfold Rdiv. rewrite asum_scal_r. reflexivity. Qed.
Lemma norm_grads_value dens d flats : (d < length (shp dens))%nat -> (forall n, In n (shp dens) -> (2 <= n)%nat) ->
  (forall f, In f flats -> (f < size_of_shape (map (fun n => (n - 1)%nat) (shp dens)))%nat) ->
  norm_grads dens d flats = Ok (map (fun f => slope_of dens d (unravel (map (fun n => (n - 1)%nat) (shp dens)) f)) flats).
Proof.
  intros Hd H2 Hf. unfold norm_grads, slope_of. destruct (Reqb (mean_nd dens) 0) eqn:E; [reflexivity|].
  destruct (grad_value (map_nd (fun v => v / mean_nd dens) dens) d Hd H2) as (g & -> & Sg & Vg). cbn [bind]. cbn [shp map_nd] in Sg, Vg.
  rewrite (mapM_got None).
  - f_equal. apply map_ext_in. intros f Hin. rewrite flat_get_unravel by (rewrite Sg; apply Hf, Hin). cbn [bind got]. rewrite Sg. f_equal.
    destruct (unravel_inb _ _ (Hf f Hin)) as [Hi _]. apply inb_length in Hi. rewrite map_length in Hi. rewrite Vg by exact Hi.
    rewrite !corner_sum_scale. apply Reqb_false in E. field. split; [apply pow_nonzero; lra|exact E].
  - intros f Hin. rewrite flat_get_unravel by (rewrite Sg; apply Hf, Hin). eexists. reflexivity.
Qed.
Lemma scalar_grads_value sd d flats : (d < length (shp sd))%nat -> (forall n, In n (shp sd) -> (2 <= n)%nat) ->
  (forall f, In f flats -> (f < size_of_shape (map (fun n => (n - 1)%nat) (shp sd)))%nat) ->
  scalar_grads sd d flats = Ok (map (fun f => scalar_slope sd d (unravel (map (fun n => (n - 1)%nat) (shp sd)) f)) flats).
Proof.
  intros Hd H2 Hf. unfold scalar_grads, scalar_slope. destruct (grad_value sd d Hd H2) as (g & -> & Sg & Vg). cbn [bind]. rewrite (mapM_got 0).
  - f_equal. apply map_ext_in. intros f Hin. rewrite flat_get_unravel by (rewrite Sg; apply Hf, Hin). cbn [got]. rewrite Sg.
    destruct (unravel_inb _ _ (Hf f Hin)) as [Hi _]. apply inb_length in Hi. rewrite map_length in Hi. apply Vg, Hi.
  - intros f Hin. rewrite flat_get_unravel by (rewrite Sg; apply Hf, Hin). eexists. reflexivity.
Qed.

(** Everything [sample] returns, given that all draws select bins. *)
Lemma sample_run G edges nsamp interp rs rand n :
  g_edges G = edges -> good_edges edges -> shp (g_dens G) = lens edges -> g_bins G = bin_shape edges ->
  (forall sd, g_sdens G = Some sd -> shp sd = lens edges /\ exists sm, g_smass G = Some sm /\ shp sm = bin_shape edges) ->
  trunc_int (match nsamp with Some r => r | None => total (g_mass G) end) = Z.of_nat n ->
  (forall j, (j < n)%nat -> exists b, (b < size_of_shape (bin_shape edges))%nat /\ random_bin (g_idx G) (g_csum G) (nth j (np_sort (map (rand 0%nat) (seq 0 n))) 0) = Ok b) ->
  exists vals sc (bin : nat -> list nat), sg_sample G nsamp interp rs rand = Ok (vals, sc) /\ shp vals = [length edges; n]
  /\ (forall j, (j < n)%nat -> inb (bin_shape edges) (bin j)
     /\ random_bin (g_idx G) (g_csum G) (nth j (np_sort (map (rand 0%nat) (seq 0 n))) 0) = Ok (ravel (bin_shape edges) (bin j))
     /\ (forall d, (d < length edges)%nat -> column vals j d = (let e := nth d edges [] in let i := nth d (bin j) 0%nat in
           nth i e 0 + (nth (S i) e 0 - nth i e 0) * (if interp then intrabin_pos (slope_of (g_dens G) d (bin j)) (rand (S d) j) else rand (S d) j))))
  /\ (forall sd sm, g_sdens G = Some sd -> g_smass G = Some sm -> rs <> Some false ->
           exists l, sc = Some l /\ length l = n /\ forall j, (j < n)%nat -> nth j l 0 = at_ sm (bin j) + (if interp then rsum (length edges) (fun d => scalar_slope sd d (bin j) * (rand (S d) j - 1 / 2)) else 0))
  /\ (g_sdens G = None \/ rs = Some false -> sc = None).
Proof.
  intros Ee Hg Sd Sb Hsc Hn Hbins. unfold sg_sample. rewrite Ee.
  unfold total in Hn. rewrite Hn. destruct (Z.ltb_spec (Z.of_nat n) 0) as [C|_]; [lia|]. rewrite Nat2Z.id. cbv zeta.
  set (us := np_sort (map (rand 0%nat) (seq 0 n))) in *. assert (Lu : length us = n) by (unfold us; rewrite np_sort_length, map_length, seq_length; reflexivity).
  set (rb := random_bin (g_idx G) (g_csum G)) in *. set (bs := bin_shape edges) in *.
  assert (Hin : forall u, In u us -> exists b, (b < size_of_shape bs)%nat /\ rb u = Ok b).
  { intros u Hu. apply (In_nth _ _ 0) in Hu. destruct Hu as [j [Hj <-]]. apply Hbins. lia. }
  rewrite (mapM_got 0%nat) by (intros u Hu; destruct (Hin u Hu) as [b [_ E]]; exists b; exact E). cbn [bind].
  set (flats := map (fun x => got 0%nat (rb x)) us).
  assert (Lf : length flats = n) by (unfold flats; rewrite map_length; exact Lu).
  assert (Hf : forall f, In f flats -> (f < size_of_shape bs)%nat).
  { intros f Hfi. unfold flats in Hfi. apply in_map_iff in Hfi. destruct Hfi as [u [<- Hu]]. destruct (Hin u Hu) as [b [Hb E]]. rewrite E. exact Hb. }
  rewrite Sb. fold bs. rewrite (mapM_got []).
  2:{ intros f Hfi. unfold unravel_index. destruct (Nat.ltb_spec f (size_of_shape bs)) as [_|C]; [eexists; reflexivity|]. specialize (Hf f Hfi). lia. }
  cbn [bind]. set (bins := map _ flats).
  assert (Lb : length bins = n) by (unfold bins; rewrite map_length; exact Lf).
  assert (Vb : forall j, (j < n)%nat -> nth j bins [] = unravel bs (nth j flats 0%nat)).
  { intros j Hj. unfold bins. rewrite (nth_map _ _ _ _ 0%nat) by lia. unfold unravel_index. destruct (Nat.ltb_spec (nth j flats 0%nat) (size_of_shape bs)) as [_|C]; [reflexivity|].
    specialize (Hf (nth j flats 0%nat)). rewrite <- Lf in Hj. specialize (Hf (nth_In _ _ Hj)). lia. }
  assert (Ib : forall b, In b bins -> inb bs b).
  { intros b Hb. apply (In_nth _ _ []) in Hb. destruct Hb as [j [Hj <-]]. rewrite Lb in Hj. rewrite Vb by exact Hj. apply unravel_inb, Hf. apply nth_In. lia. }
  set (rsb := match g_sdens G with None => false | Some _ => match rs with None => true | Some b => b end end).
  replace (match g_sdens G, rs with | None, _ => false | Some _, None => true | Some _, Some b => b end) with rsb by reflexivity.
  (* scalar masses *)
  assert (SV : exists sv, (if rsb then match g_smass G with Some sm => mapM (nd_get sm) bins | None => Ok [] end else Ok []) = Ok sv
     /\ forall sd sm, g_sdens G = Some sd -> g_smass G = Some sm -> rsb = true -> forall j, (j < n)%nat -> vget sv j = at_ sm (nth j bins [])).
  { destruct rsb eqn:Er; [|exists []; split; [reflexivity|intros; discriminate]]. destruct (g_sdens G) as [sd|] eqn:Es; [|exists []; unfold rsb in Er; discriminate Er].
    destruct (Hsc sd eq_refl) as [_ [sm [Em Hsm]]]. rewrite Em. rewrite (mapM_got 0).
    - eexists. split; [reflexivity|]. intros sd' sm' E1 E2 _ j Hj. injection E2 as <-. unfold vget. rewrite (nth_map _ _ _ _ []) by lia. unfold nd_get.
      replace (inbb (shp sm) (nth j bins [])) with true; [reflexivity|]. symmetry. apply inbb_spec. rewrite Hsm. apply Ib, nth_In. lia.
    - intros b Hb. unfold nd_get. replace (inbb (shp sm) b) with true; [eexists; reflexivity|]. symmetry. apply inbb_spec. rewrite Hsm. apply Ib, Hb. }
  destruct SV as (sv & -> & SVv). cbn [bind].
  (* gradients *)
  assert (GR : (if interp then mapM (fun d => norm_grads (g_dens G) d flats) (seq 0 (length edges)) else Ok [])
     = Ok (if interp then map (fun d => map (fun f => slope_of (g_dens G) d (unravel bs f)) flats) (seq 0 (length edges)) else [])).
  { destruct interp; [|reflexivity]. assert (NG : forall d, In d (seq 0 (length edges)) -> norm_grads (g_dens G) d flats = Ok (map (fun f => slope_of (g_dens G) d (unravel bs f)) flats)).
    { intros d Hd. apply in_seq in Hd. rewrite norm_grads_value; rewrite ?Sd, ?bins_lens; [reflexivity|rewrite lens_length; lia|apply good_len, Hg|exact Hf]. }
    rewrite (mapM_got []) by (intros d Hd; rewrite (NG d Hd); eexists; reflexivity). f_equal. apply map_ext_in. intros d Hd. rewrite (NG d Hd). reflexivity. }
  rewrite GR. cbn [bind].
  assert (SG : exists sg, (if (rsb && interp)%bool then match g_sdens G with Some sd => mapM (fun d => scalar_grads sd d flats) (seq 0 (length edges)) | None => Ok [] end else Ok []) = Ok sg
     /\ forall sd, g_sdens G = Some sd -> rsb = true -> interp = true -> forall d j, (d < length edges)%nat -> (j < n)%nat -> vget (nth d sg []) j = scalar_slope sd d (nth j bins [])).
  { destruct (rsb && interp)%bool eqn:Er.
    - apply Bool.andb_true_iff in Er. destruct Er as [Er Ei]. destruct (g_sdens G) as [sd|] eqn:Es; [|unfold rsb in Er; discriminate Er].
      destruct (Hsc sd eq_refl) as [Ssd _].
      assert (NG : forall d, In d (seq 0 (length edges)) -> scalar_grads sd d flats = Ok (map (fun f => scalar_slope sd d (unravel bs f)) flats)).
      { intros d Hd. apply in_seq in Hd. rewrite scalar_grads_value; rewrite ?Ssd, ?bins_lens; [reflexivity|rewrite lens_length; lia|apply good_len, Hg|exact Hf]. }
      rewrite (mapM_got []) by (intros d Hd; rewrite (NG d Hd); eexists; reflexivity). eexists. split; [reflexivity|]. intros sd' E _ _ d j Hd Hj. injection E as <-.
      rewrite (nth_map _ _ _ _ 0%nat) by (rewrite seq_length; exact Hd). rewrite seq_nth by exact Hd. rewrite NG by (apply in_seq; lia). cbn [got Nat.add]. unfold vget.
      rewrite (nth_map _ _ _ _ 0%nat) by lia. rewrite Vb by exact Hj. reflexivity.
    - exists []. split; [reflexivity|]. intros sd _ E1 E2. rewrite E1, E2 in Er. discriminate Er. }
  destruct SG as (sg & -> & SGv). cbn [bind]. eexists. eexists. exists (fun j => nth j bins []). split; [reflexivity|]. split; [reflexivity|]. split; [|split].
  - intros j Hj. assert (Ij : inb bs (nth j bins [])) by (apply Ib, nth_In; lia). split; [exact Ij|].
    assert (Ef : rb (nth j us 0) = Ok (nth j flats 0%nat)).
    { unfold flats. rewrite (nth_map _ _ _ _ 0) by lia. destruct (Hin (nth j us 0)) as [b [_ E]]; [apply nth_In; lia|]. rewrite E. reflexivity. }
    split.
    + rewrite Ef. f_equal. rewrite Vb by exact Hj. symmetry. apply unravel_inb, Hf, nth_In. lia.
    + intros d Hd. unfold column. cbn [at_ nth]. cbv zeta. pose proof (inb_nth _ _ d Ij) as Hi. unfold bs, bin_shape in Hi. rewrite map_length in Hi. specialize (Hi Hd).
      rewrite (nth_map _ _ _ _ []) in Hi by exact Hd.
      destruct interp.
      * unfold intrabin_interp. rewrite diff_nth by lia. unfold vget. rewrite (nth_map _ _ _ _ 0%nat) by (rewrite seq_length; exact Hd). rewrite seq_nth by exact Hd. cbn [Nat.add].
        rewrite (nth_map _ _ _ _ 0%nat) by lia. rewrite <- Vb by exact Hj. reflexivity.
      * rewrite diff_nth by lia. reflexivity.
  - intros sd sm Es Em Hr. assert (Er : rsb = true) by (unfold rsb; rewrite Es; destruct rs as [[|]|]; [reflexivity|congruence|reflexivity]). rewrite Er. eexists. split; [reflexivity|].
    split; [rewrite map_length, seq_length; reflexivity|]. intros j Hj. rewrite nth_map_seq by exact Hj. rewrite (SVv sd sm Es Em Er j Hj). f_equal. destruct interp eqn:Ei; [|reflexivity].
    apply rsum_ext. intros d Hd. rewrite (SGv sd Es Er eq_refl d j Hd Hj). reflexivity.
  - intros H. assert (Er : rsb = false) by (unfold rsb; destruct H as [->| ->]; [reflexivity|destruct (g_sdens G); reflexivity]). rewrite Er. reflexivity.
Qed.

(** KDE.cdf in other units (C152). *)
From Coq Require Import ZArith Permutation FunctionalExtensionality.
From Verif Require Import Base ModelLinAlg ModelKernels ModelKDE ModelExtrema ModelInterp ModelResample ModelUtils ModelNd ModelGrid SpecUtils SpecKDE SpecNd SpecGrid SpecUnits SpecCdfUnits.
From Verif Require Import ProofAffine ProofKDE ProofUtils ProofUtils2 ProofUtils3 ProofUtils4 ProofNested ProofNd ProofNd2 ProofGrid ProofCdf ProofLaw ProofMarginal2 ProofUnits ProofUnits2 ProofTop ProofTop2 ProofReflect1 ProofAlias.
Open Scope R_scope.
Notation length := List.length.

(* ------------------------------------------------------------ a density looks at the first coordinates *)
Lemma reflect_loop_near (ev : list (pt * R) -> pt -> R) wd (x y : pt) : (forall w, ev w x = ev w y) -> forall (refl : reflspec) ii acc,
  (forall i, (i < ii + length refl)%nat -> x i = y i) -> reflect_loop (fun w => ev w x) wd x ii refl acc = reflect_loop (fun w => ev w y) wd y ii refl acc.
Proof.
  intros He. induction refl as [|[b|] refl IH]; intros ii acc Hx; cbn [reflect_loop length] in *; [reflexivity| |].
  - rewrite (Hx ii) by lia. rewrite IH by (intros i Hi; apply Hx; lia). f_equal. destruct (outside b (y ii)); [reflexivity|].
    unfold opt_term. destruct (fst b), (snd b); rewrite ?He; reflexivity.
  - apply IH. intros i Hi. apply Hx. lia.
Qed.
Lemma eval_near n W k wd (x y : pt) : (forall i, (i < n)%nat -> x i = y i) -> eval_numba n W k wd x = eval_numba n W k wd y.
Proof.
  intros H. unfold eval_numba. apply sumf_ext. intros dw _. cbn beta. rewrite (white_dist2_ext n W x y (fst dw) (fst dw) H) by reflexivity. reflexivity.
Qed.
Lemma density_near K prob n f d M : kd_ndim K = n -> kd_kernel K = Some (mkKernel d n M) -> kde_density K prob n None PNone = Ok f ->
  forall x y : pt, (forall i, (i < n)%nat -> x i = y i) -> f x = f y.
Proof.
  intros En Ek Hf x y Hxy. unfold kde_density in Hf. cbn [resolve_params bind] in Hf. rewrite Ek in Hf.
  destruct (match match kd_reflect K with Some r => Some r | None => None end with Some r => _ | None => false end) eqn:E0; [discriminate|].
  destruct (kernel_density _ _ _ _ _ _ _) as [g|] eqn:Eg; cbn [bind] in Hf; [|discriminate].
  assert (Hg : g x = g y).
  { unfold kernel_density in Eg. cbn [bind fst snd k_ndim k_matrix k_dist] in Eg. destruct (negb (Nat.eqb n (kd_ndim K))); [discriminate|].
    destruct (match kd_weights K with None => _ | Some w => _ end) as [w|]; cbn [bind] in Eg; [|discriminate].
    destruct (minv n M) as [Mi|]; [|discriminate]. destruct (chol n Mi) as [W|]; [|discriminate].
    destruct (kd_reflect K) as [r|].
    - destruct (Nat.eqb_spec (length r) (kd_ndim K)) as [El|]; cbn [negb] in Eg; [|discriminate]. injection Eg as <-. f_equal.
      rewrite (eval_near n W _ _ x y Hxy). apply (reflect_loop_near (fun wd x => eval_numba n W (prof d) wd x)).
      + intros w0. apply eval_near, Hxy.
      + intros i Hi. apply Hxy. lia.
    - injection Eg as <-. f_equal. apply eval_near, Hxy. }
  injection Hf as <-. destruct prob; rewrite Hg; reflexivity.
Qed.

(* ------------------------------------------------------------ sums over grids *)
Lemma unit_nth s c g i : (i < length g)%nat -> nth i (map (unit_of s c) g) 0 = unit_of s c (nth i g 0).
Proof. intros Hi. rewrite (nth_indep _ 0 (unit_of s c 0)) by (rewrite map_length; exact Hi). apply map_nth. Qed.
Lemma trapezoid_unit s c g f : trapezoid (map (unit_of s c) g) f = c * trapezoid g f.
Proof.
  unfold trapezoid. rewrite map_length, <- rsum_scal. apply rsum_ext. intros j Hj. rewrite !unit_nth by lia. unfold unit_of. field.
Qed.
Lemma trapezoid_scal g f k : trapezoid g (fun i => k * f i) = k * trapezoid g f.
Proof. unfold trapezoid. rewrite <- rsum_scal. apply rsum_ext. intros j Hj. field. Qed.
Lemma trapezoids_unit s c grid : forall i f, trapezoids (at_each (fun i => map (unit_of (s i) (c i))) i grid) f = rprod (length grid) (fun k => c (i + k)%nat) * trapezoids grid f.
Proof.
  induction grid as [|g grid IH]; intros i f; cbn [at_each trapezoids length]; [cbn; ring|].
  rewrite trapezoid_unit, rprod_shift, Nat.add_0_r. rewrite Rmult_assoc. f_equal. rewrite <- trapezoid_scal. apply trapezoid_ext. intros j Hj. rewrite IH. f_equal.
  clear. induction (length grid) as [|m IH]; [reflexivity|]. cbn [rprod]. rewrite IH. f_equal. f_equal. lia.
Qed.
Lemma trapezoids_scal k grid : forall f, trapezoids grid (fun idx => k * f idx) = k * trapezoids grid f.
Proof.
  induction grid as [|g grid IH]; intros f; cbn [trapezoids]; [reflexivity|]. rewrite <- trapezoid_scal. apply trapezoid_ext. intros i Hi. apply IH.
Qed.
Lemma cut_unit s c grid : forall i idx, cut_edges (at_each (fun i => map (unit_of (s i) (c i))) i grid) idx = at_each (fun i => map (unit_of (s i) (c i))) i (cut_edges grid idx).
Proof.
  induction grid as [|g grid IH]; intros i [|j idx]; try reflexivity. cbn [at_each cut_edges]. rewrite firstn_map, IH. reflexivity.
Qed.
Lemma cut_length grid : forall idx, SpecNd.inb (lens grid) idx -> length (cut_edges grid idx) = length grid.
Proof.
  induction grid as [|g grid IH]; intros idx Hi; inversion Hi; subst; [reflexivity|]. cbn [cut_edges length]. rewrite IH by assumption. reflexivity.
Qed.
Lemma lens_unit s c grid i : lens (at_each (fun i => map (unit_of (s i) (c i))) i grid) = lens grid.
Proof. revert i. induction grid as [|g grid IH]; intros i; [reflexivity|]. cbn. rewrite map_length. f_equal. apply IH. Qed.
Lemma ascending_unit s c g : 0 < c -> ascending (map (unit_of s c) g) = ascending g.
Proof.
  intros Hc. unfold ascending. induction g as [|a [|b g] IH]; [reflexivity|reflexivity|]. cbn [map diff forallb] in *. rewrite IH. f_equal.
  unfold unit_of. destruct (Rltb_spec 0 (s + c * b - (s + c * a))), (Rltb_spec 0 (b - a)); try reflexivity; exfalso; nra.
Qed.
Lemma ascending_units s c grid : (forall i, 0 < c i) -> forall i, forallb ascending (at_each (fun i => map (unit_of (s i) (c i))) i grid) = forallb ascending grid.
Proof.
  intros Hc. induction grid as [|g grid IH]; intros i; [reflexivity|]. cbn [at_each forallb]. rewrite ascending_unit, IH by apply Hc. reflexivity.
Qed.

(* ------------------------------------------------------------ interpolation *)
Lemma ssleft_unit s c (x x' : nat -> R) v : 0 < c -> forall n i, (forall k, (k < i + n)%nat -> x' k = unit_of s c (x k)) -> ssleft x' (unit_of s c v) n i = ssleft x v n i.
Proof.
  intros Hc. induction n as [|n IH]; intros i Hx; cbn [ssleft]; [reflexivity|]. rewrite (Hx i) by lia. rewrite IH by (intros k Hk; apply Hx; lia).
  unfold unit_of. destruct (Rleb_spec (s + c * v) (s + c * x i)), (Rleb_spec v (x i)); try reflexivity; exfalso; nra.
Qed.
Lemma interp_unit s c g y y' v : 0 < c -> (2 <= length g)%nat -> (forall i, (i < length g)%nat -> y' i = y i) ->
  interp (vget (map (unit_of s c) g)) y' (length (map (unit_of s c) g) - 1) (unit_of s c v) = interp (vget g) y (length g - 1) v.
Proof.
  intros Hc Hg Hy. rewrite map_length.
  assert (Hx : forall k, (k < length g)%nat -> vget (map (unit_of s c) g) k = unit_of s c (vget g k)) by (intros k Hk; apply unit_nth, Hk).
  assert (E : interp_bin (vget (map (unit_of s c) g)) (length g - 1) (unit_of s c v) = interp_bin (vget g) (length g - 1) v).
  { unfold interp_bin. rewrite (ssleft_unit s c (vget g)) by (try exact Hc; intros k Hk; apply Hx; lia). reflexivity. }
  unfold interp. rewrite E. set (lo := interp_bin (vget g) (length g - 1) v). assert (S lo < length g)%nat by (unfold lo, interp_bin; lia).
  rewrite !Hx, !Hy by lia. unfold unit_of. f_equal. replace (s + c * vget g (S lo) - (s + c * vget g lo)) with (c * (vget g (S lo) - vget g lo)) by ring.
  replace (s + c * v - (s + c * vget g lo)) with (c * (v - vget g lo)) by ring. unfold Rdiv. rewrite Rinv_mult.
  set (e := / (vget g (S lo) - vget g lo)). field. lra.
Qed.
Lemma nint_unit s c grid : (forall i, 0 < c i) -> two_values grid -> forall i f f' x, length x = length grid -> (forall idx, SpecNd.inb (lens grid) idx -> f' idx = f idx) ->
  nint (at_each (fun i => map (unit_of (s i) (c i))) i grid) f' (at_each (fun i => unit_of (s i) (c i)) i x) = nint grid f x.
Proof.
  intros Hc. induction grid as [|g grid IH]; intros HG i f f' x Hl Hf; destruct x as [|t x]; cbn [length] in Hl; try lia; cbn [at_each nint].
  - apply Hf. constructor.
  - apply interp_unit; [apply Hc|apply HG; left; reflexivity|]. intros j Hj. apply IH; [intros h Hh; apply HG; right; exact Hh|lia|].
    intros idx Hi. apply Hf. constructor; [exact Hj|exact Hi].
Qed.

(* ------------------------------------------------------------ the cdf *)
Lemma grid_point_unit s c grid idx : SpecNd.inb (lens grid) idx -> forall k, (k < length grid)%nat ->
  grid_point (grid_unit s c grid) idx k = aff s c (grid_point grid idx) k.
Proof.
  intros Hi k Hk. unfold grid_point, aff, grid_unit. rewrite (at_each_nth _ grid 0 k []) by exact Hk. cbn [Nat.add].
  rewrite unit_nth; [reflexivity|]. clear s c. revert idx Hi k Hk. induction grid as [|g grid IH]; intros idx Hi k Hk; cbn [length] in Hk; [lia|].
  inversion Hi as [|j ? idx' ? Hj Hi']; subst. destruct k as [|k]; cbn [nth]; [exact Hj|]. apply IH; [exact Hi'|lia].
Qed.
Lemma nd_max_ext a b : shp a = shp b -> (forall idx, SpecNd.inb (shp a) idx -> at_ a idx = at_ b idx) -> nd_max a = nd_max b.
Proof.
  intros Hs H. unfold nd_max. assert (flatten_nd a = flatten_nd b) as ->; [|reflexivity]. unfold flatten_nd. rewrite <- Hs. apply map_ext_in. intros idx Hi. apply H, inb_all_idx, Hi.
Qed.
Lemma rprod_pos' n (c : nat -> R) : (forall i, 0 < c i) -> 0 < rprod n c.
Proof. intros Hc. induction n as [|n IH]; cbn; [lra|]. apply Rmult_lt_0_compat; [exact IH|apply Hc]. Qed.
Theorem cdf_units n data w b diag resc d neffa refl s c K K' grid pg rg x : (forall i, 0 < c i) ->
  kde_init n data w b diag resc d None neffa refl = Ok K ->
  kde_init n (map (aff s c) data) w b diag resc d None neffa (option_map (aff_refl s c 0) refl) = Ok K' ->
  length grid = n -> two_values grid -> length x = n ->
  kde_cdf K' (grid_unit s c grid) pg rg (point_unit s c x) = kde_cdf K grid pg rg x.
Proof.
  intros Hc HK HK' Hn HG Hx. unfold kde_cdf. destruct pg; [reflexivity|]. destruct rg; [reflexivity|].
  pose proof (kde_init_aff n data w b diag resc d neffa refl s c Hc) as HR. rewrite HK, HK' in HR. cbn [res_rel] in HR.
  destruct HR as (En & En' & Ed & Ew & _ & Hk & Er).
  pose proof (kde_density_aff K K' true n None PNone s c Hc ltac:(congruence) Ed Ew Hk Er) as HD. cbn [option_map resolve_params] in HD.
  assert (Hlg : length (grid_unit s c grid) = n) by (unfold grid_unit; rewrite at_each_length; exact Hn).
  destruct (kde_density K true n None PNone) as [f|e] eqn:Ef, (kde_density K' true n None PNone) as [f'|e'] eqn:Ef'; cbn [res_rel] in HD; try contradiction.
  2: { unfold density_grid. rewrite Hlg, Hn, Ef, Ef'. cbn [bind]. congruence. }
  destruct Hk as (d0 & M & [[Hk Hk']|[Hk Hk']]).
  2: { exfalso. unfold kde_density in Ef. cbn [resolve_params bind] in Ef. rewrite Hk in Ef. destruct (match match kd_reflect K with Some r => Some r | None => None end with Some r => _ | None => false end) in Ef; discriminate. }
  rewrite En in Hk, Hk'. pose proof (density_near K' true n f' d0 _ En' Hk' Ef') as Hloc.
  rewrite <- Hn in Ef. destruct (density_grid_pointwise K true None PNone grid f Ef) as [a [Ha [Hs Hv]]].
  rewrite <- Hlg in Ef'. destruct (density_grid_pointwise K' true None PNone (grid_unit s c grid) f' Ef') as [a' [Ha' [Hs' Hv']]].
  change (map (@length R) grid) with (lens grid) in Hs. change (map (@length R) (grid_unit s c grid)) with (lens (grid_unit s c grid)) in Hs'.
  assert (Hl : lens (grid_unit s c grid) = lens grid) by apply lens_unit.
  assert (HP : 0 < rprod n c) by apply rprod_pos', Hc.
  assert (Hval : forall idx, SpecNd.inb (lens grid) idx -> at_ a idx = rprod n c * at_ a' idx).
  { intros idx Hi. rewrite Hv by (rewrite Hs; exact Hi). rewrite Hv' by (rewrite Hs', Hl; exact Hi). rewrite <- HD, Rmult_comm. f_equal. apply Hloc. intros k Hk0.
    symmetry. apply (grid_point_unit s c grid idx Hi). lia. }
  assert (Hne : forall g, In g grid -> g <> []) by (intros g Hg ->; specialize (HG [] Hg); cbn in HG; lia).
  assert (Hne' : forall g, In g (grid_unit s c grid) -> g <> []).
  { intros g Hg ->. apply (In_nth _ _ [0]) in Hg. destruct Hg as [k [Hk0 E]]. rewrite Hlg in Hk0. unfold grid_unit in E. rewrite (at_each_nth _ grid 0 k [0]) in E by lia. apply map_eq_nil in E.
    apply (Hne (nth k grid [0])); [apply nth_In; lia|exact E]. }
  destruct (cumtrapz_value a grid Hs Hne) as [r [Hr [Hrs [Hrv _]]]]. destruct (cumtrapz_value a' _ Hs' Hne') as [r' [Hr' [Hrs' [Hrv' _]]]].
  rewrite Ha, Ha'. cbn [bind]. rewrite Hr, Hr'. cbn [bind]. unfold grid_unit at 1. rewrite ascending_units by exact Hc.
  destruct (forallb ascending grid); cbn [negb]; [|reflexivity].
  assert (Esh : shp r' = shp r) by congruence.
  assert (Er' : forall idx, SpecNd.inb (lens grid) idx -> at_ r' idx = at_ r idx).
  { intros idx Hi. rewrite Hrv by (rewrite Hs; exact Hi). rewrite Hrv' by (rewrite Hs', Hl; exact Hi).
    unfold grid_unit at 1. rewrite cut_unit, trapezoids_unit, cut_length, Hn by exact Hi.
    rewrite <- trapezoids_scal. apply trapezoids_ext. intros i Hi'. symmetry. apply Hval, (cut_inb grid idx); assumption. }
  assert (Em : nd_max r' = nd_max r) by (apply nd_max_ext; [exact Esh|]; intros idx Hi; apply Er'; rewrite Hrs', Hs', Hl in Hi; exact Hi).
  rewrite Em. destruct (Reqb_spec (nd_max r) 0); [reflexivity|]. f_equal. f_equal.
  rewrite !rgi_nested; [|lia|unfold point_unit; rewrite at_each_length, Hlg; exact Hx].
  apply nint_unit; [exact Hc|exact HG|lia|]. intros idx Hi. cbn [map_nd at_]. rewrite Er' by exact Hi. reflexivity.
Qed.
(** Everything after the density. *)
Lemma cdf_through (r1 r2 : res kde) grid x : res_rel (fun f g : pt -> R => forall y, g y = f y) (do K <- r1 ;; kde_density K true (length grid) None PNone) (do K <- r2 ;; kde_density K true (length grid) None PNone) ->
  (do K <- r1 ;; kde_cdf K grid false false x) = (do K <- r2 ;; kde_cdf K grid false false x).
Proof.
  intros H. destruct r1 as [K1|e1], r2 as [K2|e2]; cbn [bind] in *; unfold kde_cdf, density_grid.
  - destruct (kde_density K1 true _ None PNone) as [f|e], (kde_density K2 true _ None PNone) as [g|e']; cbn [res_rel bind] in *; try contradiction; [|congruence].
    rewrite (map_ext g f) by exact H. reflexivity.
  - destruct (kde_density K1 true _ None PNone) as [f|e]; cbn [res_rel bind] in *; [contradiction|congruence].
  - destruct (kde_density K2 true _ None PNone) as [f|e]; cbn [res_rel bind] in *; [contradiction|congruence].
  - cbn [res_rel] in H. congruence.
Qed.
Lemma res_rel_weaken {A} (P Q : A -> A -> Prop) r1 r2 : (forall a b, P a b -> Q a b) -> res_rel P r1 r2 -> res_rel Q r1 r2.
Proof. intros H. destruct r1, r2; cbn; auto. Qed.
Theorem cdf_order n data data' l l' b diag resc d cova neffa refl grid x :
  length l = length data -> length l' = length data' -> Permutation (combine data l) (combine data' l') ->
  (do K <- kde_init n data (WArr l) b diag resc d cova neffa refl ;; kde_cdf K grid false false x)
  = (do K <- kde_init n data' (WArr l') b diag resc d cova neffa refl ;; kde_cdf K grid false false x).
Proof.
  intros H1 H2 H3. apply cdf_through. eapply res_rel_weaken; [|apply kde_permutation; eassumption]. intros f g H y. symmetry. apply H.
Qed.
Theorem cdf_weights k n data l b diag resc d cova neffa refl grid x : 0 < k ->
  (do K <- kde_init n data (WArr (map (fscale k) l)) b diag resc d cova neffa refl ;; kde_cdf K grid false false x)
  = (do K <- kde_init n data (WArr l) b diag resc d cova neffa refl ;; kde_cdf K grid false false x).
Proof.
  intros Hk. symmetry. apply cdf_through. eapply res_rel_weaken; [|apply kde_weight_scaling, Hk]. cbn beta. intros f g H y. rewrite H. ring.
Qed.
(** Moving the data, with the automatic grid. *)
Theorem cdf_moved sorter n data w b diag resc d neffa refl s K K' bw ext edges ppf grid pg rg x : (1 <= n)%nat -> sorts sorter -> by_comparison sorter -> some_boundary n refl ->
  kde_init n data w b diag resc d None neffa refl = Ok K ->
  kde_init n (map (aff s (fun _ => 1)) data) w b diag resc d None neffa (option_map (aff_refl s (fun _ => 1) 0) refl) = Ok K' ->
  kde_extrema K ppf None = Some (Ok ext) -> length ext = n -> (forall p, In p ext -> fst p < snd p) ->
  kde_points sorter K bw ext edges = Ok grid -> length grid = n -> two_values grid -> length x = n ->
  exists ext' grid', kde_extrema K' ppf None = Some (Ok ext') /\ kde_points sorter K' bw ext' (request_unit n s (fun _ => 1) edges) = Ok grid'
    /\ kde_cdf K' grid' pg rg (point_unit s (fun _ => 1) x) = kde_cdf K grid pg rg x.
Proof.
  intros Hn Hs Hb Hr HK HK' He Hl Hlt Hg Hgl H2 Hx.
  destruct (points_moved sorter n data w b diag resc d neffa refl s K K' bw ext edges ppf Hn Hs Hb Hr HK HK' He Hl Hlt) as [ext' [E1 E2]].
  exists ext', (grid_unit s (fun _ => 1) grid). split; [exact E1|]. split; [rewrite E2, Hg; reflexivity|].
  apply (cdf_units n data w b diag resc d neffa refl); try assumption. intros; lra.
Qed.
Lemma res_rel_sym' {A} (P : A -> A -> Prop) r1 r2 : res_rel P r1 r2 -> res_rel (fun a b => P b a) r2 r1.
Proof. destruct r1, r2; cbn; auto. Qed.
Theorem cdf_repeats n data ks d C b diag resc neffa refl grid x : length ks = length data -> ((exists e, neffa = Some e) \/ (exists h, b = BwAtom (BNum h))) ->
  (do K <- kde_init n (flat_map (fun dk => repeat (fst dk) (snd dk)) (combine data ks)) WNone b diag resc d (Some C) neffa refl ;; kde_cdf K grid false false x)
  = (do K <- kde_init n data (WArr (map (fun k => Fin (INR k)) ks)) b diag resc d (Some C) neffa refl ;; kde_cdf K grid false false x).
Proof.
  intros Hl Hb. apply cdf_through. eapply res_rel_weaken; [|apply res_rel_sym', (top_repeats n data ks d C b diag resc neffa true (length grid) refl None PNone Hl Hb)].
  cbn beta. intros f g H y. apply H.
Qed.

Lemma pair_extrema : exists K a, kde_init 1 (pair_data 0 1) WNone (BwAtom (BNum 1)) false None Box None None None = Ok K /\ 0 < a
  /\ (forall ppf, kde_extrema K ppf None = Some (Ok [(0 - a, 1 + a)])) /\ forall sorter bw, kde_points sorter K bw [(0 - a, 1 + a)] (EdAll (EdVec [0; 1; 3])) = Ok [[0; 1; 3]].
Proof.
  destruct (pair_init 0 1 Box) as [C [HK EC]]. set (K := pair_kde 0 1 Box C) in *. assert (EC' : C O O = 1 / 2) by (rewrite EC; lra).
  set (a := sqrt (1 / 2) * (1 + num_pad)).
  assert (Ha : 0 < a) by (unfold a, num_pad; apply Rmult_lt_0_compat; [apply sqrt_lt_R0; lra|lra]).
  exists K, a. split; [exact HK|]. split; [exact Ha|]. split.
  - intros ppf. unfold kde_extrema, K, pair_kde. cbn [kd_kernel k_dist kd_neff kd_ndim k_matrix kd_data kd_reflect option_map ext_out finite]. unfold parse_extrema. do 2 f_equal.
    unfold eff_extrema, coords, pair_data. cbn [seq map lmin lmax fold_left]. unfold pt1. rewrite EC'. fold a. unfold sort_pair. cbn [fst snd].
    rewrite (Rmin_left 0 1), (Rmax_right 0 1) by lra. rewrite Rmin_left, Rmax_right by lra. reflexivity.
  - intros sorter bw. rewrite kde_points_eq by (cbn; lia). reflexivity.
Qed.

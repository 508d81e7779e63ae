(** C151: contours in other units. *)
From Coq Require Import ZArith Permutation FunctionalExtensionality.
From Verif Require Import Base ModelLinAlg ModelUtils ModelNd ModelGrid ModelSample ModelPlot ModelDist ModelContour
  SpecUtils SpecNd SpecPlot SpecContour SpecContourUnits ProofUtils ProofNd ProofNd2 ProofPlot2 ProofPlot3 ProofDist3 ProofSample ProofUnits ProofContour.
From Verif Require SpecQuantStable ProofQuantStable ProofSample3.
Open Scope R_scope.
Notation length := List.length.

(* ---------------------------------------------------------------- levels *)
Lemma flatten_same f A B : same_after f A B -> flatten_nd B = map f (flatten_nd A).
Proof.
  intros [S E]. unfold flatten_nd. rewrite S, map_map. apply map_ext_in. intros idx Hi. apply E. apply inb_all_idx, Hi.
Qed.
Lemma sort_scaled k l : 0 < k -> np_sort (map (Rmult k) l) = map (Rmult k) (np_sort l).
Proof.
  intros Hk. assert (E : forall l, map (Rmult k) l = map (SpecQuantStable.rescaled k 0) l) by (intros l'; apply map_ext; intros x; unfold SpecQuantStable.rescaled; ring).
  rewrite !E. apply ProofQuantStable.sort_rescaled, Hk.
Qed.
Lemma cumsum_scaled k l : cumsum1 (map (Rmult k) l) = map (Rmult k) (cumsum1 l).
Proof.
  unfold cumsum1. enough (H : forall acc, cumsum1_from (k * acc) (map (Rmult k) l) = map (Rmult k) (cumsum1_from acc l)).
  { rewrite <- H. f_equal. ring. }
  induction l as [|x l IH]; intros acc; cbn [map cumsum1_from]; [reflexivity|]. rewrite <- Rmult_plus_distr_l, IH. reflexivity.
Qed.
Lemma frac_scaled k c t q : 0 < k -> frac_le (k * c) (k * t) q = frac_le c t q.
Proof.
  intros Hk. unfold frac_le. destruct (Reqb_spec t 0) as [->|N].
  - rewrite Rmult_0_r. destruct (Reqb_spec 0 0) as [_|N]; [|contradiction]. destruct (Rltb_spec (k * c) 0), (Rltb_spec c 0); try reflexivity; nra.
  - destruct (Reqb_spec (k * t) 0) as [E|_]; [apply Rmult_integral in E; destruct E; lra|]. replace (k * c / (k * t)) with (c / t) by (field; lra). reflexivity.
Qed.
Lemma combine_scaled k (l m : list R) : combine (map (Rmult k) l) (map (Rmult k) m) = map (fun p => (k * fst p, k * snd p)) (combine l m).
Proof. revert m. induction l as [|x l IH]; intros [|y m]; cbn; [reflexivity..|]. rewrite IH. reflexivity. Qed.
Lemma filter_map_comm {A B} (f : A -> B) (p : B -> bool) l : filter p (map f l) = map f (filter (fun x => p (f x)) l).
Proof. induction l as [|x l IH]; cbn; [reflexivity|]. destruct (p (f x)); cbn; rewrite IH; reflexivity. Qed.
Lemma level_scaled k d q : 0 < k -> dfm_level (map (Rmult k) d) q = k * dfm_level d q.
Proof.
  intros Hk. unfold dfm_level. rewrite cumsum_scaled, lsum_scal, combine_scaled, filter_map_comm.
  rewrite (filter_ext _ (fun p => frac_le (fst p) (lsum d) q)) by (intros p; cbn [fst]; apply frac_scaled, Hk). rewrite <- map_rev.
  destruct (rev _) as [|p r]; cbn [map snd]; [|reflexivity]. unfold vget. destruct d; cbn [map nth]; ring.
Qed.
Lemma levels_scaled k A B quantiles sigmas sg l qs : 0 < k -> flatten_nd B = map (Rmult k) (flatten_nd A) -> dfm_levels A quantiles sigmas = Ok (sg, l, qs) ->
  dfm_levels B quantiles sigmas = Ok (sg, map (Rmult k) l, qs).
Proof.
  intros Hk E H. unfold dfm_levels in *. rewrite E, sort_scaled, <- map_rev by exact Hk. destruct (rev (np_sort (flatten_nd A))) as [|x r] eqn:ED; [discriminate H|].
  cbn [map]. injection H as <- <- <-. f_equal. f_equal. f_equal. rewrite <- sort_scaled by exact Hk. f_equal. rewrite map_map. apply map_ext. intros q.
  change (k * x :: map (Rmult k) r) with (map (Rmult k) (x :: r)). apply level_scaled, Hk.
Qed.
Lemma levels_perm A B quantiles sigmas : Permutation (flatten_nd A) (flatten_nd B) -> dfm_levels A quantiles sigmas = dfm_levels B quantiles sigmas.
Proof.
  intros H. unfold dfm_levels. replace (np_sort (flatten_nd B)) with (np_sort (flatten_nd A)); [reflexivity|].
  apply ProofQuantStable.plain_unique; [|apply ProofQuantStable.sort_nondecr..]. eapply Permutation_trans; [apply Permutation_sym, sort_perm|]. eapply Permutation_trans; [exact H|apply sort_perm].
Qed.

(* ---------------------------------------------------------------- preparation *)
Definition edge_pad (p : nat) (e : list R) : res (list R) := match p with O => Ok e | _ => pad_edge p e end.
Definition hist_pad (p : nat) (h : nda) : res nda :=
  match p with O => Ok h | _ => match flatten_nd h with [] => Err ValueError | v :: vs => Ok (pad_nd p (vmin v vs) h) end end.

Lemma match_len es h cs : match_edges es h = Ok cs -> length cs = length es.
Proof.
  unfold match_edges. destruct (nats_eqb _ _); [intros [= <-]; reflexivity|]. destruct (nats_eqb _ _); [intros [= <-]; apply map_length|discriminate].
Qed.
Lemma prep_inv ex ey hist pad cs h : prep_hist [ex; ey] hist pad = Ok (cs, h) ->
  exists x1 y1 x2 y2, edge_pad (pad_count pad) ex = Ok x1 /\ edge_pad (pad_count pad) ey = Ok y1 /\ hist_pad (pad_count pad) hist = Ok h
    /\ match_edges [x1; y1] h = Ok [x2; y2] /\ cs = [mesh [x2; y2] 0; mesh [x2; y2] 1].
Proof.
  unfold prep_hist. intros H. set (p := pad_count pad) in *.
  assert (HE : exists x1 y1 h1, edge_pad p ex = Ok x1 /\ edge_pad p ey = Ok y1 /\ hist_pad p hist = Ok h1
    /\ (do cs0 <- match_edges [x1; y1] h1 ;; if negb (Nat.eqb (length cs0) 2) then Err ValueError else Ok (map (mesh cs0) (seq 0 (length cs0)), h1)) = Ok (cs, h)).
  { destruct p as [|p]; cbn [edge_pad hist_pad].
    - exists ex, ey, hist. repeat split. exact H.
    - unfold pad_hist in H. destruct (flatten_nd hist) as [|v vs]; [discriminate H|]. cbn [mapM] in H.
      destruct (pad_edge (S p) ex) as [x1|]; [|discriminate H]. destruct (pad_edge (S p) ey) as [y1|]; [|discriminate H]. cbn [bind fst snd] in H.
      exists x1, y1, (pad_nd (S p) (vmin v vs) hist). repeat split. exact H. }
  destruct HE as (x1 & y1 & h1 & E1 & E2 & E3 & E). exists x1, y1. destruct (match_edges [x1; y1] h1) as [cs0|] eqn:EM; [|discriminate E]. pose proof (match_len _ _ _ EM) as L.
  destruct cs0 as [|x2 [|y2 [|]]]; try discriminate L. cbn in E. injection E as <- <-. exists x2, y2. repeat split; assumption.
Qed.
Lemma prep_intro ex ey hist pad h x1 y1 x2 y2 : edge_pad (pad_count pad) ex = Ok x1 -> edge_pad (pad_count pad) ey = Ok y1 -> hist_pad (pad_count pad) hist = Ok h ->
  match_edges [x1; y1] h = Ok [x2; y2] -> prep_hist [ex; ey] hist pad = Ok ([mesh [x2; y2] 0; mesh [x2; y2] 1], h).
Proof.
  intros E1 E2 E3 EM. unfold prep_hist. destruct (pad_count pad) as [|p]; cbn [edge_pad hist_pad] in *.
  - injection E1 as ->. injection E2 as ->. injection E3 as ->. cbn [bind fst snd]. rewrite EM. reflexivity.
  - unfold pad_hist. destruct (flatten_nd hist) as [|v vs]; [discriminate E3|]. injection E3 as <-. cbn [mapM]. rewrite E1, E2. cbn [bind fst snd]. rewrite EM. reflexivity.
Qed.

(* ---------------------------------------------------------------- units *)
Lemma vget_unit a b l i : (i < length l)%nat -> vget (map (in_unit a b) l) i = in_unit a b (vget l i).
Proof. intros H. unfold vget. apply ProofSample3.nth_map, H. Qed.
Lemma edge_pad_unit a b p e e1 : edge_pad p e = Ok e1 -> edge_pad p (map (in_unit a b) e) = Ok (map (in_unit a b) e1).
Proof.
  destruct p as [|p]; cbn [edge_pad]; [intros [= ->]; reflexivity|]. destruct e as [|e0 [|f0 e]]; cbn [pad_edge map].
  - discriminate.
  - destruct (Nat.leb (S p) 1); [intros [= <-]; reflexivity|discriminate].
  - intros H. apply (f_equal (fun r => match r with Ok l => l | Err _ => [] end)) in H. cbv beta iota zeta in H. rewrite <- H. clear H. cbv zeta. f_equal. change (in_unit a b e0 :: in_unit a b f0 :: map (in_unit a b) e) with (map (in_unit a b) (e0 :: f0 :: e)). rewrite !map_app, !map_map. f_equal; [|f_equal].
    + apply map_ext. intros k. unfold in_unit. ring.
    + apply map_ext. intros k. rewrite map_length. rewrite !vget_unit by (cbn [length]; lia). unfold in_unit. ring.
Qed.
Lemma hist_pad_scaled k p A B A' : 0 < k -> same_after (Rmult k) A B -> hist_pad p A = Ok A' -> exists B', hist_pad p B = Ok B' /\ same_after (Rmult k) A' B'.
Proof.
  intros Hk HS H. destruct p as [|p]; cbn [hist_pad] in *; [injection H as <-; exists B; split; [reflexivity|exact HS]|].
  rewrite (flatten_same _ _ _ HS). destruct (flatten_nd A) as [|v vs]; [discriminate H|]. injection H as <-. cbn [map]. eexists. split; [reflexivity|].
  destruct HS as [S E]. split; [unfold pad_nd; cbn [shp]; rewrite S; reflexivity|]. intros idx Hi. unfold pad_nd in *. cbn [shp at_] in *. rewrite S.
  destruct (pad_interior (Datatypes.S p) (shp A) idx) eqn:EP; [|apply vmin_scale, Hk].
  apply E. destruct (pad_interior_inv (Datatypes.S p) (shp A) idx) as (j & Hj & ->); [|exact EP|].
  - apply inb_length in Hi. cbn [shp] in Hi. rewrite map_length in Hi. exact Hi.
  - rewrite (proj2 (pad_interior_shift (Datatypes.S p) (shp A) j Hj)). exact Hj.
Qed.
Lemma mids_unit a b l : mids (map (in_unit a b) l) = map (in_unit a b) (mids l).
Proof. induction l as [|x [|y l] IH]; [reflexivity..|]. cbn [mids map] in *. rewrite IH. f_equal. unfold in_unit. field. Qed.
Lemma match_unit a b c e x1 y1 A B x2 y2 : shp B = shp A -> match_edges [x1; y1] A = Ok [x2; y2] ->
  match_edges [map (in_unit a b) x1; map (in_unit c e) y1] B = Ok [map (in_unit a b) x2; map (in_unit c e) y2].
Proof.
  intros S. unfold match_edges. cbn [map]. rewrite S, !map_length. destruct (nats_eqb _ _); [intros [= <- <-]; reflexivity|].
  destruct (nats_eqb _ _); [|discriminate]. intros [= <- <-]. rewrite !mids_unit. reflexivity.
Qed.
Lemma mesh_unit (a b c e : R) x y : same_after (in_unit a b) (mesh [x; y] 0) (mesh [map (in_unit a b) x; map (in_unit c e) y] 0)
  /\ same_after (in_unit c e) (mesh [x; y] 1) (mesh [map (in_unit a b) x; map (in_unit c e) y] 1).
Proof.
  split; (split; [unfold mesh; cbn [shp map]; rewrite !map_length; reflexivity|]); intros idx Hi; unfold mesh in *; cbn [shp at_ map] in *;
    inversion Hi as [|i n idx1 s1 Hi1 Hr1]; subst; inversion Hr1 as [|j m idx2 s2 Hj2 Hr2]; subst; cbn [nth]; apply vget_unit; assumption.
Qed.

Lemma in_bin_unit a b ex i x : 0 < a -> (S i < length ex)%nat -> in_bin (map (in_unit a b) ex) i (in_unit a b x) = in_bin ex i x.
Proof.
  intros Ha Hi. unfold in_bin. rewrite map_length, !vget_unit by lia.
  assert (L : forall u w, Rleb (in_unit a b u) (in_unit a b w) = Rleb u w). { intros u w. unfold in_unit. destruct (Rleb_spec (a * u + b) (a * w + b)), (Rleb_spec u w); try reflexivity; nra. }
  assert (L' : forall u w, Rltb (in_unit a b u) (in_unit a b w) = Rltb u w). { intros u w. unfold in_unit. destruct (Rltb_spec (a * u + b) (a * w + b)), (Rltb_spec u w); try reflexivity; nra. }
  rewrite !L, L'. reflexivity.
Qed.
Lemma combine_map_fst {A B C} (f : A -> B) (l : list A) (m : list C) : combine (map f l) m = map (fun p => (f (fst p), snd p)) (combine l m).
Proof. revert m. induction l as [|x l IH]; intros [|y m]; cbn; [reflexivity..|]. rewrite IH. reflexivity. Qed.
Lemma bin_weight_unit a b c e ex ey data ws i j : 0 < a -> 0 < c -> (S i < length ex)%nat -> (S j < length ey)%nat ->
  bin_weight2d (map (in_unit a b) ex) (map (in_unit c e) ey) (map (pair_unit a b c e) data) ws i j = bin_weight2d ex ey data ws i j.
Proof.
  intros Ha Hc Hi Hj. unfold bin_weight2d. rewrite combine_map_fst, sumf_map. apply sumf_ext. intros p _. cbn [fst snd pair_unit]. rewrite !in_bin_unit by assumption. reflexivity.
Qed.
Lemma density_unit a b c e ex ey data ws : 0 < a -> 0 < c ->
  same_after (Rmult (/ (a * c))) (hist2d_array ex ey data ws) (hist2d_array (map (in_unit a b) ex) (map (in_unit c e) ey) (map (pair_unit a b c e) data) ws).
Proof.
  intros Ha Hc. unfold hist2d_array. split; cbn [shp at_]; [rewrite !map_length; reflexivity|]. intros idx Hi.
  inversion Hi as [|i n idx1 s1 Hi1 Hr1]; subst; inversion Hr1 as [|j m idx2 s2 Hj2 Hr2]; subst. cbn [nth]. unfold density2d. rewrite !map_length, bin_weight_unit by (assumption || lia).
  rewrite !vget_unit by lia.
  assert (ET : rsum (length ex - 1) (fun i' => rsum (length ey - 1) (fun j' => bin_weight2d (map (in_unit a b) ex) (map (in_unit c e) ey) (map (pair_unit a b c e) data) ws i' j'))
    = rsum (length ex - 1) (fun i' => rsum (length ey - 1) (fun j' => bin_weight2d ex ey data ws i' j'))).
  { apply rsum_ext. intros i' Hi'. apply rsum_ext. intros j' Hj'. apply bin_weight_unit; (assumption || lia). }
  rewrite ET. replace (in_unit a b (vget ex (S i)) - in_unit a b (vget ex i)) with (a * (vget ex (S i) - vget ex i)) by (unfold in_unit; ring).
  replace (in_unit c e (vget ey (S j)) - in_unit c e (vget ey j)) with (c * (vget ey (S j) - vget ey j)) by (unfold in_unit; ring).
  unfold Rdiv. rewrite !Rinv_mult. ring.
Qed.

Lemma contour_units ex ey data ws quantiles pad a b c e cs h lv : 0 < a -> 0 < c -> contour ex ey data ws quantiles None pad = Ok (cs, h, lv) ->
  exists xs ys xs' ys' h', cs = [xs; ys]
    /\ contour (map (in_unit a b) ex) (map (in_unit c e) ey) (map (pair_unit a b c e) data) ws quantiles None pad = Ok ([xs'; ys'], h', map (fun v => v / (a * c)) lv)
    /\ same_after (in_unit a b) xs xs' /\ same_after (in_unit c e) ys ys' /\ same_after (fun v => v / (a * c)) h h'.
Proof.
  intros Ha Hc H. assert (Hk : 0 < / (a * c)) by (apply Rinv_0_lt_compat, Rmult_lt_0_compat; assumption).
  unfold contour in H. destruct (prep_hist [ex; ey] (hist2d_array ex ey data ws) pad) as [[cs0 h0]|] eqn:EP; [|discriminate H]. cbn [bind fst snd] in H.
  destruct (contour_levels h0 quantiles None) as [l0|] eqn:EL; [|discriminate H]. cbn [bind] in H. injection H as -> -> ->.
  destruct (prep_inv _ _ _ _ _ _ EP) as (x1 & y1 & x2 & y2 & E1 & E2 & E3 & EM & ->).
  destruct (hist_pad_scaled _ _ _ _ _ Hk (density_unit a b c e ex ey data ws Ha Hc) E3) as (h' & E3' & HS).
  pose proof (match_unit a b c e _ _ _ h' _ _ (proj1 HS) EM) as EM'.
  pose proof (prep_intro _ _ _ pad _ _ _ _ _ (edge_pad_unit a b _ _ _ E1) (edge_pad_unit c e _ _ _ E2) E3' EM') as EP'.
  destruct (mesh_unit a b c e x2 y2) as [M1 M2]. do 5 eexists. split; [reflexivity|]. split; [|split; [exact M1|split; [exact M2|]]].
  - unfold contour. rewrite EP'. cbn [bind fst snd]. unfold contour_levels in *. destruct (dfm_levels h quantiles None) as [[[sg l] qs]|] eqn:ED; [|discriminate EL]. cbn [bind fst snd] in EL. injection EL as ->.
    rewrite (levels_scaled _ _ _ _ _ _ _ _ Hk (flatten_same _ _ _ HS) ED). cbn [bind fst snd]. f_equal. f_equal. apply map_ext. intros v. unfold Rdiv. ring.
  - destruct HS as [S E]. split; [exact S|]. intros idx Hi. rewrite E by exact Hi. unfold Rdiv. ring.
Qed.

(* ---------------------------------------------------------------- order and scale of the weights *)
Lemma hist_same ex ey data ws data' ws' : (forall i j, density2d ex ey data ws i j = density2d ex ey data' ws' i j) -> hist2d_array ex ey data ws = hist2d_array ex ey data' ws'.
Proof. intros H. unfold hist2d_array. f_equal. apply functional_extensionality. intros idx. apply H. Qed.
Lemma contour_order ex ey data ws data' ws' quantiles levels pad : Permutation (combine data ws) (combine data' ws') ->
  contour ex ey data ws quantiles levels pad = contour ex ey data' ws' quantiles levels pad.
Proof.
  intros H. unfold contour. rewrite (hist_same ex ey data ws data' ws'); [reflexivity|]. intros i j. unfold density2d.
  assert (E : forall i j, bin_weight2d ex ey data ws i j = bin_weight2d ex ey data' ws' i j) by (intros; unfold bin_weight2d; apply sumf_perm, H).
  rewrite E. f_equal. apply rsum_ext. intros i' _. apply rsum_ext. intros j' _. apply E.
Qed.
Lemma combine_map_snd {A B C} (f : B -> C) (l : list A) (m : list B) : combine l (map f m) = map (fun p => (fst p, f (snd p))) (combine l m).
Proof. revert m. induction l as [|x l IH]; intros [|y m]; cbn; [reflexivity..|]. rewrite IH. reflexivity. Qed.
Lemma contour_weights ex ey data ws c quantiles levels pad : c <> 0 ->
  contour ex ey data (map (Rmult c) ws) quantiles levels pad = contour ex ey data ws quantiles levels pad.
Proof.
  intros Hc. unfold contour. rewrite (hist_same ex ey data (map (Rmult c) ws) data ws); [reflexivity|]. intros i j. unfold density2d.
  assert (E : forall i j, bin_weight2d ex ey data (map (Rmult c) ws) i j = c * bin_weight2d ex ey data ws i j).
  { intros i' j'. unfold bin_weight2d. rewrite combine_map_snd, sumf_map, <- sumf_scal. apply sumf_ext. intros p _. cbn [fst snd]. destruct (andb _ _); ring. }
  rewrite E, (rsum_ext (length ex - 1) _ (fun i' => c * rsum (length ey - 1) (fun j' => bin_weight2d ex ey data ws i' j'))).
  - rewrite rsum_scal. unfold Rdiv. rewrite Rinv_mult. set (u := rsum _ _). replace (c * bin_weight2d ex ey data ws i j) with (bin_weight2d ex ey data ws i j * c) by ring.
    rewrite !Rmult_assoc. f_equal. rewrite <- !Rmult_assoc. replace (c * / (vget ex (S i) - vget ex i) * / (vget ey (S j) - vget ey j) * / c * / u) with (c * / c * (/ (vget ex (S i) - vget ex i) * / (vget ey (S j) - vget ey j) * / u)) by ring.
    rewrite Rinv_r by exact Hc. ring.
  - intros i' _. rewrite <- rsum_scal. apply rsum_ext. intros j' _. apply E.
Qed.

(* ---------------------------------------------------------------- exchanged axes *)
Lemma flat_cons {A B} (f : A -> B) (g : A -> list B) l : Permutation (flat_map (fun j => f j :: g j) l) (map f l ++ flat_map g l).
Proof.
  induction l as [|x l IH]; cbn; [constructor|]. apply perm_skip. eapply Permutation_trans; [apply Permutation_app_head, IH|].
  rewrite !app_assoc. apply Permutation_app_tail, Permutation_app_comm.
Qed.
Lemma flat_swap {A B C} (f : A -> B -> C) l m : Permutation (flat_map (fun i => map (f i) m) l) (flat_map (fun j => map (fun i => f i j) l) m).
Proof.
  induction l as [|x l IH]; cbn [flat_map map].
  - induction m; [constructor|exact IHm].
  - eapply Permutation_trans; [apply Permutation_app_head, IH|]. apply Permutation_sym, (flat_cons (f x) (fun j => map (fun i => f i j) l)).
Qed.
Lemma flatten_2 A n m : shp A = [n; m] -> flatten_nd A = flat_map (fun i => map (fun j => at_ A [i; j]) (seq 0 m)) (seq 0 n).
Proof.
  intros S. unfold flatten_nd. rewrite S.
  assert (E1 : all_idx [m] = map (fun j => [j]) (seq 0 m)). { cbn [all_idx]. induction (seq 0 m) as [|j r IH]; [reflexivity|]. cbn [flat_map]. rewrite IH. reflexivity. }
  change (all_idx [n; m]) with (flat_map (fun i => map (cons i) (all_idx [m])) (seq 0 n)). rewrite E1.
  induction (seq 0 n) as [|i l IH]; [reflexivity|]. cbn [flat_map]. rewrite map_app, IH, !map_map. reflexivity.
Qed.
Lemma flatten_exchanged A B : exchanged A B -> Permutation (flatten_nd A) (flatten_nd B).
Proof.
  intros (n & m & S1 & S2 & E). rewrite (flatten_2 A n m S1), (flatten_2 B m n S2). eapply Permutation_trans; [apply (flat_swap (fun i j => at_ A [i; j]))|].
  replace (flat_map (fun j => map (fun i => at_ A [i; j]) (seq 0 n)) (seq 0 m)) with (flat_map (fun i => map (fun j => at_ B [i; j]) (seq 0 n)) (seq 0 m)); [apply Permutation_refl|].
  rewrite !flat_map_concat_map. f_equal. apply map_ext_in. intros j Hj. apply map_ext_in. intros i Hi. apply in_seq in Hi, Hj. apply E; lia.
Qed.
Lemma vmin_perm x l y m : Permutation (x :: l) (y :: m) -> vmin x l = vmin y m.
Proof.
  intros H. destruct (vmin_min x l) as [A1 A2]. destruct (vmin_min y m) as [B1 B2]. apply Rle_antisym.
  - apply A2. apply (Permutation_in _ (Permutation_sym H)), B1.
  - apply B2. apply (Permutation_in _ H), A1.
Qed.
Lemma hist_pad_exchanged p A B A' : exchanged A B -> hist_pad p A = Ok A' -> exists B', hist_pad p B = Ok B' /\ exchanged A' B'.
Proof.
  intros HX H. destruct p as [|p]; cbn [hist_pad] in *; [injection H as <-; exists B; split; [reflexivity|exact HX]|]. pose proof (flatten_exchanged _ _ HX) as HP.
  destruct (flatten_nd A) as [|v vs]; [discriminate H|]. destruct (flatten_nd B) as [|u us]; [apply Permutation_sym, Permutation_nil in HP; discriminate HP|].
  injection H as <-. eexists. split; [reflexivity|]. rewrite <- (vmin_perm _ _ _ _ HP). destruct HX as (n & m & S1 & S2 & E). unfold pad_nd. rewrite S1, S2. cbn [map pad_interior].
  exists (n + 2 * S p)%nat, (m + 2 * S p)%nat. cbn [shp at_]. split; [reflexivity|]. split; [reflexivity|]. intros i j Hi Hj. cbn [pad_interior map].
  destruct (Nat.leb_spec (S p) i), (Nat.ltb_spec i (S p + n)), (Nat.leb_spec (S p) j), (Nat.ltb_spec j (S p + m)); cbn [andb]; try reflexivity. apply E; lia.
Qed.
Lemma match_exchanged x1 y1 A B x2 y2 : exchanged A B -> match_edges [x1; y1] A = Ok [x2; y2] -> match_edges [y1; x1] B = Ok [y2; x2].
Proof.
  intros (n & m & S1 & S2 & _). unfold match_edges, nats_eqb. rewrite S1, S2. cbn [map].
  destruct (list_eq_dec Nat.eq_dec [n; m] [length x1; length y1]) as [E|N].
  - injection E as -> ->. intros [= <- <-]. destruct (list_eq_dec Nat.eq_dec [length y1; length x1] [length y1; length x1]); [reflexivity|contradiction].
  - destruct (list_eq_dec Nat.eq_dec [S n; S m] [length x1; length y1]) as [E|]; [|discriminate]. injection E as E1 E2. intros [= <- <-].
    destruct (list_eq_dec Nat.eq_dec [m; n] [length y1; length x1]) as [E'|_]; [exfalso; apply N; injection E' as -> ->; reflexivity|].
    destruct (list_eq_dec Nat.eq_dec [S m; S n] [length y1; length x1]) as [_|N']; [reflexivity|]. exfalso. apply N'. rewrite E1, E2. reflexivity.
Qed.
Lemma mesh_exchanged x y : exchanged (mesh [x; y] 0) (mesh [y; x] 1) /\ exchanged (mesh [x; y] 1) (mesh [y; x] 0).
Proof. split; exists (length x), (length y); (split; [reflexivity|split; [reflexivity|]]); intros i j _ _; reflexivity. Qed.
Lemma rsum_swap2 n m (f : nat -> nat -> R) : rsum n (fun i => rsum m (fun j => f i j)) = rsum m (fun j => rsum n (fun i => f i j)).
Proof. apply rsum_swap. Qed.
Lemma density_exchanged ex ey data ws : exchanged (hist2d_array ex ey data ws) (hist2d_array ey ex (map swap data) ws).
Proof.
  exists (length ex - 1)%nat, (length ey - 1)%nat. split; [reflexivity|]. split; [reflexivity|]. intros i j _ _. unfold hist2d_array. cbn [at_ nth]. unfold density2d.
  assert (E : forall i j, bin_weight2d ey ex (map swap data) ws j i = bin_weight2d ex ey data ws i j).
  { intros i' j'. unfold bin_weight2d. rewrite combine_map_fst, sumf_map. apply sumf_ext. intros p _. cbn [fst snd swap]. rewrite Bool.andb_comm. reflexivity. }
  rewrite E, (rsum_ext (length ey - 1) _ (fun j' => rsum (length ex - 1) (fun i' => bin_weight2d ex ey data ws i' j'))) by (intros j' _; apply rsum_ext; intros i' _; apply E).
  rewrite <- rsum_swap2. unfold Rdiv. ring.
Qed.
Lemma contour_exchange ex ey data ws quantiles levels pad cs h lv : contour ex ey data ws quantiles levels pad = Ok (cs, h, lv) ->
  exists xs ys xs' ys' h', cs = [xs; ys] /\ contour ey ex (map swap data) ws quantiles levels pad = Ok ([ys'; xs'], h', lv)
    /\ exchanged xs xs' /\ exchanged ys ys' /\ exchanged h h'.
Proof.
  intros H. unfold contour in H. destruct (prep_hist [ex; ey] (hist2d_array ex ey data ws) pad) as [[cs0 h0]|] eqn:EP; [|discriminate H]. cbn [bind fst snd] in H.
  destruct (contour_levels h0 quantiles levels) as [l0|] eqn:EL; [|discriminate H]. cbn [bind] in H. injection H as -> -> ->.
  destruct (prep_inv _ _ _ _ _ _ EP) as (x1 & y1 & x2 & y2 & E1 & E2 & E3 & EM & ->).
  destruct (hist_pad_exchanged _ _ _ _ (density_exchanged ex ey data ws) E3) as (h' & E3' & HX).
  pose proof (prep_intro _ _ _ pad _ _ _ _ _ E2 E1 E3' (match_exchanged _ _ _ _ _ _ HX EM)) as EP'.
  destruct (mesh_exchanged x2 y2) as [M1 M2]. do 5 eexists. split; [reflexivity|]. split; [|split; [exact M1|split; [exact M2|exact HX]]].
  unfold contour. rewrite EP'. cbn [bind fst snd]. unfold contour_levels in *. destruct levels as [l|]; [injection EL as ->; reflexivity|].
  rewrite <- (levels_perm h h' quantiles None (flatten_exchanged _ _ HX)), EL. reflexivity.
Qed.

(* ---------------------------------------------------------------- levels jump *)
Definition row3 (x y z : R) : nda := mkA [1; 3]%nat (fun idx => nth (nth 1 idx 0%nat) [x; y; z] 0).
Lemma row3_sorted x y z : x <= y -> y <= z -> np_sort (flatten_nd (row3 x y z)) = [x; y; z].
Proof.
  intros H1 H2. change (insert_val x (insert_val y [z]) = [x; y; z]). cbn [insert_val]. destruct (Rleb_spec y z); [|lra]. cbn [insert_val]. destruct (Rleb_spec x y); [reflexivity|lra].
Qed.
Lemma row3_level x y z q : 0 < x + y + z -> x <= y -> y <= z -> dfm_levels (row3 x y z) (Some [q]) None
  = Ok (map sigma_of_quantile [q], [dfm_level [z; y; x] q], [q]).
Proof. intros H0 H1 H2. unfold dfm_levels. rewrite row3_sorted by assumption. reflexivity. Qed.
Lemma jump_up : dfm_level [2; 1; 1] (3 / 4) = 1.
Proof.
  unfold dfm_level, frac_le. cbn. destruct (Reqb_spec (2 + (1 + (1 + 0))) 0); [lra|].
  destruct (Rleb_spec ((0 + 2) / (2 + (1 + (1 + 0)))) (3 / 4)); [|lra]. destruct (Rleb_spec ((0 + 2 + 1) / (2 + (1 + (1 + 0)))) (3 / 4)); [|lra].
  destruct (Rleb_spec ((0 + 2 + 1 + 1) / (2 + (1 + (1 + 0)))) (3 / 4)); [lra|]. reflexivity.
Qed.
Lemma jump_down d : 0 < d -> dfm_level [2; 1 + d; 1 - d] (3 / 4) = 2.
Proof.
  intros Hd. unfold dfm_level, frac_le. cbn. destruct (Reqb_spec (2 + (1 + d + (1 - d + 0))) 0); [lra|].
  replace (2 + (1 + d + (1 - d + 0))) with 4 by ring. destruct (Rleb_spec ((0 + 2) / 4) (3 / 4)); [|lra]. destruct (Rleb_spec ((0 + 2 + (1 + d)) / 4) (3 / 4)); [lra|].
  destruct (Rleb_spec ((0 + 2 + (1 + d) + (1 - d)) / 4) (3 / 4)); [lra|]. reflexivity.
Qed.
Lemma levels_jump : forall eps, 0 < eps -> exists a b q sg l l', close_entries eps a b /\ total_of a = total_of b /\ (forall v, entry a v \/ entry b v -> 0 < v)
  /\ dfm_levels a (Some [q]) None = Ok (sg, [l], [q]) /\ dfm_levels b (Some [q]) None = Ok (sg, [l'], [q]) /\ 0 < l /\ l' = 2 * l.
Proof.
  intros eps He. set (d := Rmin eps (1 / 2)). assert (Hd : 0 < d <= eps /\ d <= 1 / 2) by (unfold d, Rmin; destruct (Rle_dec eps (1 / 2)); lra).
  exists (row3 1 1 2), (row3 (1 - d) (1 + d) 2), (3 / 4), (map sigma_of_quantile [3 / 4]), 1, 2.
  assert (HI : forall x y z idx, SpecNd.inb [1; 3]%nat idx -> at_ (row3 x y z) idx = x \/ at_ (row3 x y z) idx = y \/ at_ (row3 x y z) idx = z).
  { intros x y z idx Hi. inversion Hi as [|i n idx1 s1 Hi1 Hr1]; subst; inversion Hr1 as [|j m idx2 s2 Hj2 Hr2]; subst. unfold row3. cbn [at_ nth]. destruct j as [|[|[|j]]]; cbn; try lia; tauto. }
  split; [|split; [|split; [|split; [|split; [|split; lra]]]]].
  - split; [reflexivity|]. intros idx Hi. cbn [shp row3] in Hi. inversion Hi as [|i n idx1 s1 Hi1 Hr1]; subst; inversion Hr1 as [|j m idx2 s2 Hj2 Hr2]; subst. unfold row3. cbn [at_ nth].
    destruct j as [|[|[|j]]]; cbn [nth]; try lia; apply Rabs_le; lra.
  - unfold total_of, row3. cbn. ring.
  - intros v [(idx & Hi & <-)|(idx & Hi & <-)]; [destruct (HI 1 1 2 idx Hi) as [->|[->| ->]]; lra|destruct (HI (1 - d) (1 + d) 2 idx Hi) as [->|[->| ->]]; lra].
  - rewrite row3_level by lra. rewrite jump_up. reflexivity.
  - rewrite row3_level by lra. rewrite jump_down by lra. reflexivity.
Qed.

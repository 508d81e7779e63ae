From Verif Require Import Base ModelLinAlg ModelKernels ModelKDE ModelUtils ModelGrid ModelNd ModelInterp ModelPlot ModelDist ModelCarpet SpecUtils SpecCarpet ProofKDE ProofDist3 ProofPlot ProofPlot2 ProofPlot3.
Open Scope R_scope.
Notation length := List.length.

Lemma carpet_inv sel z top xx ystd yave shift limit fancy random rotate alpha dr : carpet sel z top xx ystd yave shift limit fancy random rotate alpha = Ok (Some dr) ->
  let xs := limited limit sel 0 xx in let n := length xs in let s := carpet_ystd top ystd yave in let a := carpet_yave top ystd yave in
  exists y0 ys, length y0 = n /\ length ys = n
  /\ (random = NoNormal /\ 0 <= s /\ (forall k, (k < n)%nat -> nth k y0 0 = a + s * z k)
      \/ random = NoUniform /\ (forall k, (k < n)%nat -> nth k y0 0 = a - s + 2 * s * z k))
  /\ (forall k, (k < n)%nat -> nth k ys 0 = if fancy then (nth k y0 0 - a) / (sqrt (deviation xs (nth k xs 0)) + 1) + a else nth k y0 0)
  /\ (fancy = true -> np_std xs <> 0)
  /\ dr_alpha dr = clip01 (match alpha with Some v => v | None => default_alpha n end)
  /\ dr_sizes dr = (if fancy then map (fun x => base_size n / (3 / 2) * (3 / 2 + deviation xs x)) xs else repeat (base_size n) n)
  /\ minmax ys false None StNone StNone None = Ok (dr_extent dr)
  /\ dr_points dr = (if rotate then combine (map (fun y => y + shift) ys) xs else combine xs (map (fun y => y + shift) ys)).
Proof.
  unfold carpet. cbv zeta. set (xs := limited limit sel 0 xx). set (n := length xs). set (s := carpet_ystd top ystd yave). set (a := carpet_yave top ystd yave).
  intros H.
  assert (HN : forall (f : nat -> R) k, (k < n)%nat -> nth k (map f (seq 0 n)) 0 = f k).
  { intros f k Hk. rewrite (nth_indep _ 0 (f O)) by (rewrite map_length, seq_length; exact Hk). rewrite map_nth, seq_nth by exact Hk. reflexivity. }
  set (e := match random with NoNormal => _ | NoUniform => _ | NoOther => _ end) in H.
  destruct e as [y0|] eqn:Ey; [|discriminate H]. unfold e in Ey. clear e. cbn [bind] in H.
  destruct (andb fancy (Reqb (np_std xs) 0)) eqn:Ef; [discriminate H|].
  set (ys := if fancy then map _ (combine y0 (map (deviation xs) xs)) else y0) in H.
  destruct (minmax ys false None StNone StNone None) as [ext|] eqn:Em; [|discriminate H]. cbn [bind] in H. injection H as <-.
  assert (Hl : length y0 = n).
  { destruct random; [destruct (Rltb s 0); [discriminate Ey|]| |discriminate Ey]; injection Ey as <-; rewrite map_length, seq_length; reflexivity. }
  exists y0, ys. split; [exact Hl|]. split.
  { unfold ys. destruct fancy; [|exact Hl]. rewrite map_length, combine_length, map_length, Hl. unfold n. lia. }
  split.
  { destruct random; [left|right|discriminate Ey].
    - destruct (Rltb_spec s 0); [discriminate Ey|]. injection Ey as <-. split; [reflexivity|]. split; [lra|]. intros k Hk. apply HN. exact Hk.
    - injection Ey as <-. split; [reflexivity|]. intros k Hk. rewrite HN by exact Hk. ring. }
  split.
  { intros k Hk. unfold ys. destruct fancy; [|reflexivity].
    set (g := fun p : R * R => (fst p - a) / (sqrt (snd p) + 1) + a).
    rewrite (nth_indep _ 0 (g (0, 0))) by (rewrite map_length, combine_length, map_length, Hl; unfold n in Hk; lia).
    rewrite map_nth. rewrite combine_nth by (rewrite map_length; exact Hl). unfold g. cbn [fst snd].
    rewrite (nth_indep (map (deviation xs) xs) 0 (deviation xs 0)) by (rewrite map_length; exact Hk). rewrite map_nth. reflexivity. }
  split.
  { intros ->. cbn [andb] in Ef. intros E. rewrite E in Ef. destruct (Reqb_spec 0 0); [discriminate Ef|lra]. }
  cbn [dr_alpha dr_sizes dr_extent dr_points]. split; [reflexivity|]. split; [destruct fancy; [rewrite map_map|]; reflexivity|]. split; [exact Em|]. reflexivity.
Qed.

Lemma placed_is top ystd yave a s : placed top ystd yave a s <-> s = carpet_ystd top ystd yave /\ a = carpet_yave top ystd yave.
Proof. unfold placed, carpet_yave, carpet_ystd. destruct ystd as [s'|], yave as [a'|]; split; intros [-> ->]; split; lra. Qed.

Lemma shown_is sel limit xx l : shown sel limit xx l <-> l = limited limit sel 0 xx.
Proof.
  unfold shown, limited. destruct limit as [k|].
  - destruct (Nat.ltb_spec k (length xx)) as [H|H]; split.
    + intros [_ B]. apply B; [reflexivity|exact H].
    + intros ->. split; [intros A; specialize (A k eq_refl); lia|intros k' E _; injection E as <-; reflexivity].
    + intros [A _]. apply A. intros k' E. injection E as <-. exact H.
    + intros ->. split; [reflexivity|intros k' E L; injection E as <-; lia].
  - split; [intros [A _]; apply A; discriminate|intros ->; split; [reflexivity|discriminate]].
Qed.
Lemma np_std_is l : l <> [] -> spread_of l (np_std l).
Proof.
  intros Hl. assert (Hn : 0 < INR (length l)) by (apply lt_0_INR; destruct l; [congruence|cbn; lia]).
  split; [apply sqrt_pos|]. exists (np_mean l). unfold np_mean. split; [field; lra|]. unfold np_std. fold (np_mean l).
  change (lsum (map (fun x => (x - np_mean l) * (x - np_mean l)) l)) with (sumf (fun x => (x - np_mean l) * (x - np_mean l)) l). rewrite sqrt_sqrt; [fold (np_mean l); field; lra|].
  apply Rmult_le_pos; [|left; apply Rinv_0_lt_compat, Hn]. apply sumf_nonneg. intros x _. apply Rle_0_sqr.
Qed.
Lemma np_std_zero l : np_std l = 0 <-> all_equal l.
Proof.
  destruct l as [|x0 r0]; [split; [intros _ x y []|intros _; unfold np_std; cbn; unfold Rdiv; rewrite Rmult_0_l; apply sqrt_0]|].
  destruct (np_std_is (x0 :: r0) ltac:(discriminate)) as [P (mu & M & E)]. set (l := x0 :: r0) in *.
  assert (Hn : 0 < INR (length l)) by (apply lt_0_INR; unfold l; cbn; lia). split; intros H.
  - rewrite H, !Rmult_0_r in E. assert (Z : forall x, In x l -> x = mu).
    { intros x Hx. assert (F : (x - mu) * (x - mu) = 0); [|destruct (Rmult_integral _ _ F); lra]. apply (lsum_zero_all (map (fun x => (x - mu) * (x - mu)) l)); [|symmetry; exact E|apply (in_map (fun x => (x - mu) * (x - mu))), Hx].
      intros y Hy. apply in_map_iff in Hy. destruct Hy as [z [<- _]]. apply Rle_0_sqr. }
    intros x y Hx Hy. rewrite (Z x Hx), (Z y Hy). reflexivity.
  - assert (S : lsum l = INR (length l) * x0).
    { rewrite <- (map_id l) at 1. change (sumf (fun x => x) l = INR (length l) * x0). rewrite (sumf_ext _ (fun _ => x0)); [apply sumf_const|].
      intros x Hx. apply H; [exact Hx|left; reflexivity]. }
    rewrite S in M. assert (mu = x0) by (apply Rmult_eq_reg_l with (INR (length l)); lra). subst mu. rewrite sumf_zero in E; [destruct (Rmult_integral _ _ E) as [C|C]; [lra|destruct (Rmult_integral _ _ C); assumption]|].
    intros x Hx. rewrite (H x x0 Hx (or_introl eq_refl)). ring.
Qed.
(** When there is an error, and when all ordinates are nan. *)
Lemma carpet_outcome sel z top xx ystd yave shift limit fancy random rotate alpha a s l : placed top ystd yave a s -> shown sel limit xx l ->
  (random = NoOther \/ random = NoNormal /\ s < 0 -> carpet sel z top xx ystd yave shift limit fancy random rotate alpha = Err ValueError)
  /\ (random = NoUniform \/ random = NoNormal /\ 0 <= s ->
      (fancy = true /\ all_equal l -> carpet sel z top xx ystd yave shift limit fancy random rotate alpha = Ok None)
      /\ (~ (fancy = true /\ all_equal l) -> exists dr, carpet sel z top xx ystd yave shift limit fancy random rotate alpha = Ok (Some dr))).
Proof.
  intros HP HS. apply placed_is in HP. destruct HP as [-> ->]. apply shown_is in HS. subst l. unfold carpet. cbv zeta. split.
  - intros [-> |[-> Hs]]; [reflexivity|]. destruct (Rltb_spec (carpet_ystd top ystd yave) 0); [reflexivity|lra].
  - intros H. set (e := match random with NoNormal => _ | NoUniform => _ | NoOther => _ end).
    assert (He : exists y0, e = Ok y0).
    { unfold e. destruct H as [-> |[-> Hs]]; [eauto|]. destruct (Rltb_spec (carpet_ystd top ystd yave) 0); [lra|eauto]. }
    destruct He as [y0 ->]. cbn [bind]. rewrite <- np_std_zero. split.
    + intros [-> E]. rewrite E. destruct (Reqb_spec 0 0); [reflexivity|lra].
    + intros N. destruct (andb fancy (Reqb (np_std (limited limit sel 0 xx)) 0)) eqn:Ef.
      { apply andb_prop in Ef. destruct Ef as [-> Ef]. destruct (Reqb_spec (np_std (limited limit sel 0 xx)) 0); [|discriminate Ef]. exfalso. apply N. auto. }
      set (ys := if fancy then _ else y0).
      assert (Hm : exists ext, minmax ys false None StNone StNone None = Ok ext) by (unfold minmax; destruct ys; cbn; eauto).
      destruct Hm as [ext ->]. cbn [bind]. eauto.
Qed.

Lemma map_fst_combine (A B : Type) (l : list A) (m : list B) : length l = length m -> map fst (combine l m) = l.
Proof. revert m. induction l as [|a l IH]; intros [|b m] H; try discriminate H; [reflexivity|]. cbn. f_equal. apply IH. injection H as H. exact H. Qed.
Lemma map_snd_combine (A B : Type) (l : list A) (m : list B) : length l = length m -> map snd (combine l m) = m.
Proof. revert m. induction l as [|a l IH]; intros [|b m] H; try discriminate H; [reflexivity|]. cbn. f_equal. apply IH. injection H as H. exact H. Qed.

(** The points lie at the data; one size for each. *)
Lemma carpet_data sel z top xx ystd yave shift limit fancy random rotate alpha dr :
  carpet sel z top xx ystd yave shift limit fancy random rotate alpha = Ok (Some dr) ->
  map (data_of rotate) (dr_points dr) = limited limit sel 0 xx /\ length (dr_sizes dr) = length (dr_points dr).
Proof.
  intros H. destruct (carpet_inv _ _ _ _ _ _ _ _ _ _ _ _ _ H) as (y0 & ys & H1 & H2 & _ & _ & _ & _ & H7 & _ & H9).
  rewrite H9, H7. split.
  - destruct rotate; [apply map_snd_combine|apply map_fst_combine]; rewrite map_length; congruence.
  - assert (E : forall rot : bool, length (if rot then combine (map (fun y => y + shift) ys) (limited limit sel 0 xx) else combine (limited limit sel 0 xx) (map (fun y => y + shift) ys)) = length (limited limit sel 0 xx)).
    { intros []; rewrite combine_length, map_length, H2; lia. }
    rewrite E. destruct fancy; [apply map_length|apply repeat_length].
Qed.
Lemma carpet_ordinates sel z top xx ystd yave shift limit fancy random rotate alpha dr :
  carpet sel z top xx ystd yave shift limit fancy random rotate alpha = Ok (Some dr) ->
  exists ys, map (ordinate rotate) (dr_points dr) = map (fun y => y + shift) ys /\ minmax ys false None StNone StNone None = Ok (dr_extent dr)
  /\ length ys = length (limited limit sel 0 xx).
Proof.
  intros H. destruct (carpet_inv _ _ _ _ _ _ _ _ _ _ _ _ _ H) as (y0 & ys & H1 & H2 & _ & _ & _ & _ & _ & H8 & H9).
  exists ys. split; [|split; [exact H8|exact H2]]. rewrite H9.
  destruct rotate; [apply map_fst_combine|apply map_snd_combine]; rewrite map_length; congruence.
Qed.

Lemma np_std_nonneg l : 0 <= np_std l. Proof. apply sqrt_pos. Qed.
Lemma deviation_nonneg l x : np_std l <> 0 -> 0 <= deviation l x.
Proof.
  intros H. pose proof (np_std_nonneg l). unfold deviation. apply Rmult_le_pos; [apply Rabs_pos|]. left. apply Rinv_0_lt_compat. lra.
Qed.
Lemma contract (d a y b : R) : 0 <= d -> Rabs (y - a) <= b -> Rabs ((y - a) / (sqrt d + 1) + a - a) <= b.
Proof.
  intros Hd H. pose proof (sqrt_pos d). replace ((y - a) / (sqrt d + 1) + a - a) with ((y - a) * / (sqrt d + 1)) by (field; lra).
  rewrite Rabs_mult, (Rabs_pos_eq (/ (sqrt d + 1))) by (left; apply Rinv_0_lt_compat; lra).
  apply Rle_trans with (2 := H). rewrite <- (Rmult_1_r (Rabs (y - a))) at 2. apply Rmult_le_compat_l; [apply Rabs_pos|].
  rewrite <- Rinv_1. apply Rinv_le_contravar; lra.
Qed.

(** Uniform noise, also with fancy: within the spread of the baseline. *)
Lemma carpet_band sel z top xx ystd yave shift limit fancy rotate alpha dr a s : placed top ystd yave a s -> (forall k, 0 <= z k <= 1) ->
  carpet sel z top xx ystd yave shift limit fancy NoUniform rotate alpha = Ok (Some dr) ->
  forall p, In p (dr_points dr) -> Rabs (ordinate rotate p - (a + shift)) <= Rabs s.
Proof.
  intros HP Hz H. apply placed_is in HP. destruct HP as [-> ->].
  destruct (carpet_inv _ _ _ _ _ _ _ _ _ _ _ _ _ H) as (y0 & ys & H1 & H2 & H3 & H4 & H5 & _ & _ & H8 & H9).
  intros p Hp. set (a := carpet_yave top ystd yave) in *. set (s := carpet_ystd top ystd yave) in *. set (xs := limited limit sel 0 xx) in *.
  assert (Ho : In (ordinate rotate p) (map (fun y => y + shift) ys)).
  { assert (E : map (ordinate rotate) (dr_points dr) = map (fun y => y + shift) ys).
    { rewrite H9. destruct rotate; [apply map_fst_combine|apply map_snd_combine]; rewrite map_length; congruence. }
    rewrite <- E. apply in_map. exact Hp. }
  apply in_map_iff in Ho. destruct Ho as [y [Ey Hy]]. rewrite <- Ey. replace (y + shift - (a + shift)) with (y - a) by ring.
  destruct (In_nth _ _ 0 Hy) as [k [Hk E]]. rewrite H2 in Hk. rewrite <- E, (H4 k Hk).
  destruct H3 as [[C _]|[_ H3]]; [discriminate C|].
  assert (Hb : Rabs (nth k y0 0 - a) <= Rabs s).
  { rewrite (H3 k Hk). replace (a - s + 2 * s * z k - a) with (s * (2 * z k - 1)) by ring. rewrite Rabs_mult.
    rewrite <- (Rmult_1_r (Rabs s)) at 2. apply Rmult_le_compat_l; [apply Rabs_pos|]. apply Rabs_le. specialize (Hz k). lra. }
  destruct fancy; [|exact Hb]. apply contract; [apply deviation_nonneg, H5; reflexivity|exact Hb].
Qed.
(** By default the carpet lies below zero. *)
Lemma carpet_below sel z top xx limit fancy rotate alpha dr : 0 < top -> (forall k, 0 <= z k <= 1) ->
  carpet sel z top xx None None 0 limit fancy NoUniform rotate alpha = Ok (Some dr) ->
  forall p, In p (dr_points dr) -> - (12 / 100) * top <= ordinate rotate p <= - (8 / 100) * top.
Proof.
  intros Ht Hz H p Hp.
  assert (HP : placed top None None (- top / 10) (top / 50)) by (split; reflexivity).
  pose proof (carpet_band _ _ _ _ _ _ _ _ _ _ _ _ _ _ HP Hz H p Hp) as Hb.
  rewrite (Rabs_pos_eq (top / 50)) in Hb by lra. apply Rcomplements.Rabs_le_between in Hb. lra.
Qed.
Lemma carpet_normal_below sel z top xx limit rotate alpha dr : 0 < top ->
  carpet sel z top xx None None 0 limit false NoNormal rotate alpha = Ok (Some dr) ->
  forall k, (k < length (dr_points dr))%nat -> (ordinate rotate (nth k (dr_points dr) (0, 0)) < 0 <-> z k < 5).
Proof.
  intros Ht H k Hk. destruct (carpet_inv _ _ _ _ _ _ _ _ _ _ _ _ _ H) as (y0 & ys & H1 & H2 & H3 & H4 & H5 & _ & _ & H8 & H9).
  destruct (carpet_data _ _ _ _ _ _ _ _ _ _ _ _ _ H) as [Hd _]. apply (f_equal (@List.length R)) in Hd. rewrite map_length in Hd. rewrite Hd in Hk.
  destruct H3 as [[_ [_ H3]]|[C _]]; [|discriminate C].
  assert (E : ordinate rotate (nth k (dr_points dr) (0, 0)) = nth k ys 0 + 0).
  { rewrite <- (map_nth (ordinate rotate)). rewrite H9.
    replace (ordinate rotate (0, 0)) with (0 + 0) by (destruct rotate; cbn; ring).
    rewrite <- (map_nth (fun y => y + 0)). f_equal.
    destruct rotate; [apply map_fst_combine|apply map_snd_combine]; rewrite map_length; congruence. }
  rewrite E, (H4 k Hk), (H3 k Hk). unfold carpet_yave, carpet_ystd. split; intros; nra.
Qed.


(** The returned extent is that of the ordinates before the shift. *)
Lemma minmax_plain y ys : minmax (y :: ys) false None StNone StNone None = Ok (Some (Some (vmin y ys), Some (vmax y ys))).
Proof. reflexivity. Qed.
Lemma carpet_extent sel z top xx ystd yave shift limit fancy random rotate alpha dr :
  carpet sel z top xx ystd yave shift limit fancy random rotate alpha = Ok (Some dr) -> dr_points dr <> [] ->
  exists lo hi, dr_extent dr = Some (Some lo, Some hi) /\ spans (map (fun p => ordinate rotate p - shift) (dr_points dr)) lo hi.
Proof.
  intros H Hne. destruct (carpet_ordinates _ _ _ _ _ _ _ _ _ _ _ _ _ H) as (ys & H1 & H2 & H3).
  assert (E : map (fun p => ordinate rotate p - shift) (dr_points dr) = ys).
  { rewrite <- (map_map (ordinate rotate) (fun y => y - shift)), H1, map_map. rewrite <- (map_id ys) at 2. apply map_ext. intros y. ring. }
  rewrite E. destruct ys as [|y ys]; [destruct (dr_points dr); [congruence|discriminate E]|].
  rewrite minmax_plain in H2. injection H2 as H2. exists (vmin y ys), (vmax y ys). split; [congruence|].
  destruct (vmin_min y ys) as [A B], (vmax_max y ys) as [C D]. split; [exact A|]. split; [exact C|]. intros u Hu. split; [apply B; exact Hu|apply D; exact Hu].
Qed.

Lemma carpet_points sel z top xx ystd yave shift limit fancy random rotate alpha dr :
  carpet sel z top xx ystd yave shift limit fancy random rotate alpha = Ok (Some dr) ->
  length (dr_sizes dr) = length (dr_points dr)
  /\ ((forall k, limit = Some k -> (length xx <= k)%nat) -> map (data_of rotate) (dr_points dr) = xx)
  /\ (forall k, limit = Some k -> (k < length xx)%nat -> map (data_of rotate) (dr_points dr) = map (fun i => nth i xx 0) (sel (length xx) k)).
Proof.
  intros H. destruct (carpet_data _ _ _ _ _ _ _ _ _ _ _ _ _ H) as [Hd Hl]. split; [exact Hl|]. rewrite Hd. unfold limited. split.
  - intros Hk. destruct limit as [k|]; [|reflexivity]. specialize (Hk k eq_refl). destruct (Nat.ltb_spec k (length xx)); [lia|reflexivity].
  - intros k -> Hk. destruct (Nat.ltb_spec k (length xx)); [reflexivity|lia].
Qed.

(** Opacity: that given, cut to [0, 1]; otherwise one for up to 100 points, and such that n alpha^2 = 100 beyond. *)
Lemma clip01_range a : 0 <= clip01 a <= 1. Proof. unfold clip01. split; [apply Rmin_glb; [apply Rmax_r|lra]|apply Rmin_r]. Qed.
Lemma clip01_id a : 0 <= a <= 1 -> clip01 a = a. Proof. intros. unfold clip01. rewrite Rmax_left, Rmin_left; lra. Qed.
Lemma default_alpha_small n : (n <= 100)%nat -> default_alpha n = 1.
Proof.
  intros H. unfold default_alpha. destruct (Nat.eqb_spec n 0); [reflexivity|].
  assert (0 < INR n) by (apply lt_0_INR; lia). assert (Hs : 0 < sqrt (INR n)) by (apply sqrt_lt_R0; lra).
  assert (INR n <= 10 * 10). { apply le_INR in H. replace (INR 100) with (10 * 10) in H by (rewrite INR_IZR_INZ; cbn; lra). exact H. }
  assert (sqrt (INR n) <= 10). { rewrite <- (sqrt_square 10) by lra. apply sqrt_le_1_alt. exact H1. }
  assert (1 <= 10 / sqrt (INR n)). { apply Rmult_le_reg_r with (sqrt (INR n)); [exact Hs|]. unfold Rdiv. rewrite Rmult_assoc, Rinv_l by lra. lra. }
  rewrite Rmin_right; [reflexivity|]. apply Rle_trans with (1 := H3). apply Rmax_l.
Qed.
Lemma default_alpha_large n : (100 < n)%nat -> 0 < default_alpha n < 1 /\ INR n * (default_alpha n * default_alpha n) = 100.
Proof.
  intros H. unfold default_alpha. destruct (Nat.eqb_spec n 0); [lia|].
  assert (Hn : 10 * 10 < INR n). { apply lt_INR in H. replace (INR 100) with (10 * 10) in H by (rewrite INR_IZR_INZ; cbn; lra). exact H. }
  assert (Hs : 10 < sqrt (INR n)). { rewrite <- (sqrt_square 10) by lra. apply sqrt_lt_1_alt. lra. }
  assert (Hq : 0 < 10 / sqrt (INR n) < 1).
  { split; [apply Rdiv_lt_0_compat; lra|]. apply Rmult_lt_reg_r with (sqrt (INR n)); [lra|]. unfold Rdiv. rewrite Rmult_assoc, Rinv_l by lra. lra. }
  rewrite Rmax_left, Rmin_left by lra. split; [exact Hq|].
  rewrite <- (sqrt_sqrt (INR n)) at 1 by lra. field. lra.
Qed.
Lemma carpet_opacity sel z top xx ystd yave shift limit fancy random rotate alpha dr :
  carpet sel z top xx ystd yave shift limit fancy random rotate alpha = Ok (Some dr) ->
  (forall v, alpha = Some v -> 0 <= dr_alpha dr <= 1 /\ (0 <= v <= 1 -> dr_alpha dr = v) /\ (v < 0 -> dr_alpha dr = 0) /\ (1 < v -> dr_alpha dr = 1))
  /\ (alpha = None -> (length (dr_points dr) <= 100)%nat -> dr_alpha dr = 1)
  /\ (alpha = None -> (100 < length (dr_points dr))%nat -> 0 < dr_alpha dr < 1 /\ INR (length (dr_points dr)) * (dr_alpha dr * dr_alpha dr) = 100).
Proof.
  intros H. destruct (carpet_inv _ _ _ _ _ _ _ _ _ _ _ _ _ H) as (y0 & ys & _ & _ & _ & _ & _ & H6 & _).
  destruct (carpet_data _ _ _ _ _ _ _ _ _ _ _ _ _ H) as [Hd _]. apply (f_equal (@List.length R)) in Hd. rewrite map_length in Hd. rewrite Hd, H6. split; [|split].
  - intros v ->. split; [apply clip01_range|]. split; [apply clip01_id|]. unfold clip01. split; intros.
    + rewrite Rmax_right, Rmin_left; lra.
    + rewrite Rmax_left, Rmin_right; lra.
  - intros -> Hn. rewrite default_alpha_small by exact Hn. apply clip01_id. lra.
  - intros -> Hn. destruct (default_alpha_large _ Hn) as [A B]. rewrite clip01_id by lra. split; [exact A|exact B].
Qed.

(** Sizes: between 5 and 100 and all equal; with fancy at least that, by the distance from the median. *)
Lemma base_size_range n : 5 <= base_size n <= 100.
Proof. unfold base_size. split; [apply Rmin_glb; [apply Rmax_r|lra]|apply Rmin_r]. Qed.
Lemma base_size_mono n m : (0 < n <= m)%nat -> base_size m <= base_size n.
Proof.
  intros H. unfold base_size. assert (0 < INR n) by (apply lt_0_INR; lia). assert (INR n <= INR m) by (apply le_INR; lia).
  assert (0 < sqrt (INR n)) by (apply sqrt_lt_R0; lra). assert (sqrt (INR n) <= sqrt (INR m)) by (apply sqrt_le_1_alt; lra).
  assert (300 / sqrt (INR m) <= 300 / sqrt (INR n)) by (apply Rmult_le_compat_l; [lra|apply Rinv_le_contravar; lra]).
  apply Rle_min_compat_r. apply Rle_max_compat_r. exact H4.
Qed.
Lemma base_size_exact n : (0 < n)%nat -> ((n <= 9)%nat -> base_size n = 100) /\ ((3600 <= n)%nat -> base_size n = 5)
  /\ ((9 <= n <= 3600)%nat -> INR n * (base_size n * base_size n) = 90000).
Proof.
  intros H0. assert (Hn : 0 < INR n) by (apply lt_0_INR; lia). assert (Hs : 0 < sqrt (INR n)) by (apply sqrt_lt_R0; lra).
  assert (T : 300 / sqrt (INR n) * sqrt (INR n) = 300) by (field; lra).
  assert (Q : forall c, 0 < c -> c <= 300 / sqrt (INR n) <-> sqrt (INR n) * c <= 300).
  { intros c Hc. split; intros Hi; [nra|]. apply Rmult_le_reg_r with (sqrt (INR n)); [exact Hs|]. rewrite T. lra. }
  assert (Q' : forall c, 0 < c -> 300 / sqrt (INR n) <= c <-> 300 <= sqrt (INR n) * c).
  { intros c Hc. split; intros Hi; [nra|]. apply Rmult_le_reg_r with (sqrt (INR n)); [exact Hs|]. rewrite T. lra. }
  assert (Up : (n <= 9)%nat -> sqrt (INR n) <= 3).
  { intros H. apply le_INR in H. replace (INR 9) with (3 * 3) in H by (rewrite INR_IZR_INZ; cbn; lra). rewrite <- (sqrt_square 3) by lra. apply sqrt_le_1_alt. exact H. }
  assert (Up' : (9 <= n)%nat -> 3 <= sqrt (INR n)).
  { intros H. apply le_INR in H. replace (INR 9) with (3 * 3) in H by (rewrite INR_IZR_INZ; cbn; lra). rewrite <- (sqrt_square 3) by lra. apply sqrt_le_1_alt. exact H. }
  assert (I36 : INR 3600 = 60 * 60) by (replace 3600%nat with (60 * 60)%nat by reflexivity; rewrite mult_INR; replace (INR 60) with 60 by (rewrite INR_IZR_INZ; reflexivity); reflexivity).
  assert (Lo : (n <= 3600)%nat -> sqrt (INR n) <= 60).
  { intros H. apply le_INR in H. rewrite I36 in H. rewrite <- (sqrt_square 60) by lra. apply sqrt_le_1_alt. exact H. }
  assert (Lo' : (3600 <= n)%nat -> 60 <= sqrt (INR n)).
  { intros H. apply le_INR in H. rewrite I36 in H. rewrite <- (sqrt_square 60) by lra. apply sqrt_le_1_alt. exact H. }
  unfold base_size. split; [|split]; intros H.
  - specialize (Up H). apply Rmin_right. apply Rle_trans with (2 := Rmax_l _ _). apply Q; lra.
  - specialize (Lo' H). rewrite Rmax_right, Rmin_left; [reflexivity|lra|]. apply Q'; lra.
  - specialize (Up' (proj1 H)). specialize (Lo (proj2 H)). rewrite Rmax_left by (apply Q; lra). rewrite Rmin_left by (apply Q'; lra).
    rewrite <- (sqrt_sqrt (INR n)) at 1 by lra. field. lra.
Qed.

Lemma carpet_sizes_plain sel z top xx ystd yave shift limit random rotate alpha dr :
  carpet sel z top xx ystd yave shift limit false random rotate alpha = Ok (Some dr) ->
  forall s, In s (dr_sizes dr) -> 5 <= s <= 100 /\ ((length (dr_points dr) <= 9)%nat -> s = 100) /\ ((3600 <= length (dr_points dr))%nat -> s = 5)
  /\ ((9 <= length (dr_points dr) <= 3600)%nat -> INR (length (dr_points dr)) * (s * s) = 90000).
Proof.
  intros H s Hs. destruct (carpet_inv _ _ _ _ _ _ _ _ _ _ _ _ _ H) as (y0 & ys & _ & _ & _ & _ & _ & _ & H7 & _).
  destruct (carpet_data _ _ _ _ _ _ _ _ _ _ _ _ _ H) as [Hd _]. apply (f_equal (@List.length R)) in Hd. rewrite map_length in Hd. rewrite Hd.
  rewrite H7 in Hs. set (n := length (limited limit sel 0 xx)) in *. assert (H0 : (0 < n)%nat) by (destruct n; [destruct Hs|lia]).
  apply repeat_spec in Hs. subst s. split; [apply base_size_range|]. apply base_size_exact. exact H0.
Qed.
(** With fancy: at least 5, at the distance d standard deviations from the median larger by the factor 1 + 2 d / 3. *)
Lemma carpet_sizes_fancy sel z top xx ystd yave shift limit random rotate alpha dr :
  carpet sel z top xx ystd yave shift limit true random rotate alpha = Ok (Some dr) ->
  exists b m s, 5 <= b <= 100 /\ median_of (map (data_of rotate) (dr_points dr)) m /\ (dr_points dr <> [] -> 0 < s /\ spread_of (map (data_of rotate) (dr_points dr)) s)
  /\ forall k, (k < length (dr_points dr))%nat -> nth k (dr_sizes dr) 0 = b * (1 + 2 / 3 * (Rabs (data_of rotate (nth k (dr_points dr) (0, 0)) - m) / s)).
Proof.
  intros H. destruct (carpet_inv _ _ _ _ _ _ _ _ _ _ _ _ _ H) as (y0 & ys & _ & _ & _ & _ & H5 & _ & H7 & _).
  destruct (carpet_data _ _ _ _ _ _ _ _ _ _ _ _ _ H) as [Hd _]. rewrite Hd.
  exists (base_size (length (limited limit sel 0 xx))), (np_median (limited limit sel 0 xx)), (np_std (limited limit sel 0 xx)).
  split; [apply base_size_range|]. split; [apply np_median_is|]. specialize (H5 eq_refl). split.
  { intros Hp. assert (Hl : limited limit sel 0 xx <> []) by (rewrite <- Hd; destruct (dr_points dr); [congruence|discriminate]).
    pose proof (np_std_is _ Hl) as Hs. split; [destruct Hs as [[G|G] _]; [exact G|congruence]|exact Hs]. }
  intros k Hk.
  assert (E : data_of rotate (nth k (dr_points dr) (0, 0)) = nth k (limited limit sel 0 xx) 0).
  { rewrite <- (map_nth (data_of rotate)), Hd. destruct rotate; reflexivity. }
  rewrite E, H7. apply (f_equal (@List.length R)) in Hd. rewrite map_length in Hd. rewrite Hd in Hk.
  set (g := fun x => base_size _ / (3 / 2) * (3 / 2 + deviation (limited limit sel 0 xx) x)).
  rewrite (nth_indep _ 0 (g 0)) by (rewrite map_length; exact Hk). rewrite map_nth. unfold g, deviation. field. exact H5.
Qed.

(** The extent is not that of the drawn points when there is a shift. *)
Lemma carpet_extent_refuted : exists sel z top xx ystd yave shift limit fancy random rotate alpha dr lo hi,
  carpet sel z top xx ystd yave shift limit fancy random rotate alpha = Ok (Some dr) /\ dr_extent dr = Some (Some lo, Some hi)
  /\ dr_points dr <> [] /\ (forall p, In p (dr_points dr) -> hi < ordinate rotate p).
Proof.
  set (sel := fun _ _ : nat => @nil nat). set (z := fun _ : nat => 1 / 2).
  destruct (proj2 (proj2 (carpet_outcome sel z 1 [7] (Some 1) (Some 0) 1 None false NoUniform false None 0 1 [7] (conj eq_refl eq_refl) (proj2 (shown_is _ _ _ _) eq_refl)) (or_introl eq_refl))) as [dr H]; [intros [C _]; discriminate C|].
  destruct (carpet_inv _ _ _ _ _ _ _ _ _ _ _ _ _ H) as (y0 & ys & H1 & H2 & H3 & H4 & _ & _ & _ & H8 & H9).
  cbn [limited List.length] in *. destruct H3 as [[C _]|[_ H3]]; [discriminate C|].
  destruct ys as [|y [|y' ys]]; try discriminate H2. rewrite minmax_plain in H8. injection H8 as H8.
  pose proof (H4 O ltac:(lia)) as E. rewrite (H3 O ltac:(lia)) in E. cbn in E. unfold z in E. cbn [vmin vmax] in H8.
  exists sel, z, 1, [7], (Some 1), (Some 0), 1, None, false, NoUniform, false, None, dr, y, y. split; [exact H|]. split; [congruence|].
  rewrite H9. cbn. split; [discriminate|]. intros p [<-|[]]. cbn. lra.
Qed.

(** A call that draws. *)
Lemma carpet_example : exists dr, carpet (fun _ _ => []) (fun _ => 1 / 4) 5 [3; 1; 2] None None 0 None true NoUniform true None = Ok (Some dr)
  /\ map (data_of true) (dr_points dr) = [3; 1; 2].
Proof.
  assert (HP : placed 5 None None (- 5 / 10) (5 / 50)) by (split; reflexivity).
  destruct (proj2 (proj2 (carpet_outcome (fun _ _ => []) (fun _ => 1 / 4) 5 [3; 1; 2] None None 0 None true NoUniform true None _ _ [3; 1; 2] HP (proj2 (shown_is _ _ _ _) eq_refl)) (or_introl eq_refl))) as [dr H].
  - intros [_ C]. specialize (C 3 1 (or_introl eq_refl) (or_intror (or_introl eq_refl))). lra.
  - exists dr. split; [exact H|]. apply (carpet_points _ _ _ _ _ _ _ _ _ _ _ _ _ H). discriminate.
Qed.

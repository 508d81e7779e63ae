(** Statements about construction followed by evaluation, assembled from the kernel-level lemmas. *)
From Coquelicot Require Import Coquelicot.
From Coq Require Import Permutation FunctionalExtensionality String.
From Verif Require Import Base ModelLinAlg SpecLinAlg ProofLinAlg SpecIntegral ProofIntegral
  ModelKernels SpecKernels ProofKernels ModelKDE SpecKDE ProofDensity ProofAffine ProofReflect1
  ProofMarginal ProofKDE.
Open Scope R_scope.
Notation length := List.length.

Lemma ones_repeat {A} (l : list A) : ones l = repeat 1 (length l).
Proof. unfold ones. induction l; cbn; [reflexivity|]. f_equal. exact IHl. Qed.

Lemma map_Fin_inj l l' : map Fin l = map Fin l' -> l = l'.
Proof.
  revert l'. induction l as [|a l IH]; intros [|b l'] H; try discriminate; [reflexivity|].
  injection H as -> H. f_equal. apply IH, H.
Qed.

Lemma check_weights_given n data w ws ow : n = length data -> weights_given w data ws ->
  check_weights n w = Ok ow ->
  wlist data ow = ws /\ length ws = length data /\ (forall v, In v ws -> 0 <= v)
  /\ (ow = None -> w = WNone) /\ (forall l, ow = Some l -> l = ws)
  /\ (data <> [] -> 0 < lsum ws).
Proof.
  intros -> [[-> ->]| ->] H.
  - injection H as <-. cbn [wlist]. rewrite repeat_length. change (map (fun _ => 1) data) with (ones data).
    rewrite ones_repeat. repeat split; auto.
    + intros v Hv. apply repeat_spec in Hv. lra.
    + intros l E; discriminate.
    + intros Hd. rewrite <- ones_repeat, lsum_ones. apply lt_0_INR. destruct data; [contradiction Hd; reflexivity|cbn; lia].
  - destruct (check_weights_iff (length data) (map Fin ws)) as [H1 H2].
    destruct (Classical_Prop.classic (valid_weights (length data) (map Fin ws))) as [Hv|Hv];
      [|rewrite (H2 Hv) in H; discriminate].
    destruct (H1 Hv) as [w' [E1 E2]]. rewrite E1 in H. injection H as <-. apply map_Fin_inj in E2. subst w'.
    destruct Hv as [Hl [Hall [x [Hx Hne]]]]. rewrite map_length in Hl. cbn [wlist].
    assert (Hnn : forall v, In v ws -> 0 <= v).
    { intros v Hv. destruct (Hall (Fin v) (in_map Fin _ _ Hv)) as [r [E Hr]]. injection E as ->. exact Hr. }
    repeat split; auto; [discriminate|intros l E; injection E as ->; reflexivity|].
    intros _. apply in_map_iff in Hx. destruct Hx as [v [<- Hv]].
    assert (v <> 0) by (intros ->; apply Hne; reflexivity). pose proof (Hnn v Hv).
    pose proof (sumf_ge_term (fun x => x) ws v) as Hg. unfold sumf in Hg. rewrite map_id in Hg.
    assert (v <= lsum ws); [|lra]. apply Hg; auto.
Qed.

Lemma kde_weights_of n data w ws b diag resc d cova neffa refl K : weights_given w data ws ->
  kde_init n data w b diag resc d cova neffa refl = Ok K ->
  kd_ndim K = n /\ kd_data K = data /\ data <> [] /\ kd_reflect K = refl
  /\ wlist data (kd_weights K) = ws /\ length ws = length data /\ (forall v, In v ws -> 0 <= v)
  /\ 0 < lsum ws
  /\ (match kd_weights K with None => INR (length data) | Some w => lsum w end) = lsum ws.
Proof.
  intros Hg HK. destruct (kde_init_inv _ _ _ _ _ _ _ _ _ _ _ HK) as [bw [En [Ed [Hne [Er [Ew _]]]]]].
  destruct (check_weights_given _ _ _ _ _ eq_refl Hg Ew) as [H1 [H2 [H3 [H4 [H5 H6]]]]].
  repeat split; auto. destruct (kd_weights K) as [l|] eqn:E.
  - rewrite (H5 l eq_refl). reflexivity.
  - cbn [wlist] in H1. rewrite <- H1. change (map (fun _ => 1) data) with (ones data). rewrite lsum_ones. reflexivity.
Qed.

Lemma kernel_density_wlist K pdim ddim data ow refl params :
  kernel_density K pdim ddim data ow refl params = kernel_density K pdim ddim data (Some (wlist data ow)) refl params.
Proof. destruct ow; [reflexivity|]. rewrite kernel_density_ones. reflexivity. Qed.

(* ---------------------------------------------------------------- C01 *)
Lemma kde_textbook n data w ws b diag resc d cova neffa K M N :
  (1 <= n)%nat -> weights_given w data ws ->
  kde_init n data w b diag resc d cova neffa None = Ok K ->
  kd_kernel K = Some (mkKernel d n M) -> symmetric n M -> posdef n M -> is_inverse n M N ->
  exists Z f g, 0 < Z
    /\ (forall base, is_tintN n (fun y => spec_prof d (quad n N y)) base Z)
    /\ kde_density K false n None PNone = Ok f /\ kde_pdf K n None PNone = Ok g
    /\ forall x, f x = spec_sum d n N (combine data ws) x / Z /\ g x = f x / lsum ws.
Proof.
  intros Hn Hg HK Hker Hs Hp HN.
  destruct (kde_weights_of _ _ _ _ _ _ _ _ _ _ _ _ Hg HK) as [En [Ed [Hne [Er [Ewl [Hl [Hnn [Hpos Etot]]]]]]]].
  destruct (density_textbook d n M N data ws Hn Hs Hp HN Hl) as [Z [f [HZ [HZi [Hf Ef]]]]].
  exists Z, f. rewrite <- En in Hker.
  pose proof (kde_density_plain K d M false Hker Er) as P1.
  pose proof (kde_density_plain K d M true Hker Er) as P2.
  rewrite En, Ed, kernel_density_wlist, Ewl, Hf in P1, P2. cbn [bind] in P1, P2. rewrite Etot in P2.
  eexists. split; [exact HZ|split; [exact HZi|split; [exact P1|split; [exact P2|]]]].
  intros x. split; [apply Ef|reflexivity].
Qed.

Lemma kde_not_posdef n data w ws b diag resc d cova neffa K M (prob : bool) :
  weights_given w data ws ->
  kde_init n data w b diag resc d cova neffa None = Ok K ->
  kd_kernel K = Some (mkKernel d n M) -> symmetric n M -> ~ posdef n M ->
  kde_density K prob n None PNone = Err LinAlgError.
Proof.
  intros Hg HK Hker Hs Hp.
  destruct (kde_weights_of _ _ _ _ _ _ _ _ _ _ _ _ Hg HK) as [En [Ed [Hne [Er [Ewl [Hl _]]]]]].
  rewrite <- En in Hker. pose proof (kde_density_plain K d M prob Hker Er) as P1. rewrite En in P1. rewrite P1.
  rewrite Ed, kernel_density_wlist, Ewl.
  rewrite (density_not_posdef d n M data ws None Hs Hp Hl). reflexivity.
Qed.

(* ---------------------------------------------------------------- C02 *)
Lemma kde_nonneg n data w b diag resc d cova neffa refl0 K (prob : bool) pdim refl p f x :
  kde_init n data w b diag resc d cova neffa refl0 = Ok K ->
  kde_density K prob pdim refl p = Ok f -> 0 <= f x.
Proof.
  intros HK. destruct (kde_init_inv _ _ _ _ _ _ _ _ _ _ _ HK) as [bw [En [Ed [Hne [Er [Ew _]]]]]].
  pose proof (check_weights_pos _ _ _ Ew) as Hw.
  unfold kde_density. destruct (resolve_params K p) as [ops|]; [|discriminate]. cbn [bind].
  destruct (match _ with Some r => _ | None => false end); [discriminate|].
  destruct (kd_kernel K) as [kern|]; [|discriminate].
  destruct (kernel_density _ _ _ _ _ _ _) as [g|] eqn:Eg; [|discriminate]. cbn [bind].
  rewrite kernel_density_wlist in Eg.
  assert (Hg : forall y, 0 <= g y).
  { intros y. apply (kernel_density_nonneg _ _ _ _ _ _ _ _ y Eg). intros v Hv. unfold wlist in Hv.
    destruct (kd_weights K) as [l|].
    - apply Hw. exact Hv.
    - apply in_map_iff in Hv. destruct Hv as [? [<- _]]. lra. }
  assert (Htot : 0 <= match kd_weights K with None => INR (length (kd_data K)) | Some w => lsum w end).
  { destruct (kd_weights K) as [l|]; [|apply pos_INR]. apply lsum_nonneg. apply Hw. }
  intros E. destruct prob; injection E as <-; [apply Rdiv_nonneg0; [apply Hg|exact Htot]|apply Hg].
Qed.

Lemma spec_prof_le d r : 0 <= r -> spec_prof d r <= spec_prof d 0.
Proof.
  intros H. unfold spec_prof. destruct d.
  - replace (- (0 / 2)) with 0 by field. rewrite exp_0.
    destruct (Req_dec r 0) as [->|Hne]; [replace (- (0 / 2)) with 0 by field; rewrite exp_0; lra|].
    left. rewrite <- exp_0. apply exp_increasing. lra.
  - destruct (Rle_dec r 1), (Rle_dec 0 1); lra.
  - destruct (Rle_dec r 1), (Rle_dec 0 1); lra.
  - destruct (Rle_dec r 1), (Rle_dec 0 1); try lra.
    assert (0 <= 1 - r <= 1) by lra. set (u := 1 - r) in *.
    assert (u * u <= 1) by nra. assert (0 <= u * u) by nra. nra.
Qed.

Lemma kde_bounded n data w ws b diag resc d cova neffa K M N Z base f x :
  (1 <= n)%nat -> weights_given w data ws ->
  kde_init n data w b diag resc d cova neffa None = Ok K ->
  kd_kernel K = Some (mkKernel d n M) -> symmetric n M -> posdef n M -> is_inverse n M N ->
  is_tintN n (fun y => spec_prof d (quad n N y)) base Z ->
  kde_density K false n None PNone = Ok f ->
  f x <= lsum ws * (spec_prof d 0 / Z).
Proof.
  intros Hn Hg HK Hker Hs Hp HN HZ Hf.
  destruct (kde_textbook _ _ _ _ _ _ _ _ _ _ _ _ _ Hn Hg HK Hker Hs Hp HN) as [Z' [f' [g [HZ' [Hi [Hf' [_ E]]]]]]].
  rewrite Hf in Hf'. injection Hf' as <-. pose proof (tintN_unique _ _ _ _ _ HZ (Hi base)) as ->.
  destruct (kde_weights_of _ _ _ _ _ _ _ _ _ _ _ _ Hg HK) as [_ [_ [_ [_ [_ [Hl [Hnn _]]]]]]].
  destruct (E x) as [-> _]. unfold Rdiv. rewrite <- Rmult_assoc. apply Rmult_le_compat_r; [left; apply Rinv_0_lt_compat; exact HZ'|].
  unfold spec_sum. rewrite Rmult_comm.
  rewrite <- (map_snd_combine data ws Hl) at 2. change (lsum (map snd (combine data ws))) with (sumf snd (combine data ws)).
  rewrite <- sumf_scal. apply sumf_le. intros [p v] Hin. cbn [fst snd].
  rewrite Rmult_comm. apply Rmult_le_compat_r; [apply Hnn; apply in_combine_r in Hin; exact Hin|].
  apply spec_prof_le.
  (* N is positive definite too *)
  destruct (kernel_density_plain d n M data (Some ws) Hs Hp) as [N' [W [HN' [HW [HsN [Hinv _]]]]]].
  { intros w' E'. injection E' as <-. exact Hl. }
  rewrite (quad_ext n N N' _ (psub x p)); [|exact (inverse_unique n M N N' HN Hinv)|reflexivity].
  rewrite <- (white_dist2_quad n N' W) by assumption. unfold white_dist2. apply rsum_nonneg. intros. apply Rle_0_sqr.
Qed.

(* ---------------------------------------------------------------- C03, C04, C06 *)
Lemma res_rel_bind2 {A B} (P : A -> A -> Prop) (Q : B -> B -> Prop) x y (f g : A -> res B) :
  res_rel P x y -> (forall a b, P a b -> res_rel Q (f a) (g b)) -> res_rel Q (bind x f) (bind y g).
Proof.
  destruct x as [a|e], y as [b|e']; cbn [res_rel bind]; intros H Hf; try contradiction; [apply Hf, H|exact H].
Qed.

Lemma kde_permutation n data data' l l' b diag resc d cova neffa refl0 (prob : bool) pdim refl p :
  length l = length data -> length l' = length data' -> Permutation (combine data l) (combine data' l') ->
  res_rel (fun f g => forall x, f x = g x)
    (do K <- kde_init n data (WArr l) b diag resc d cova neffa refl0 ;; kde_density K prob pdim refl p)
    (do K <- kde_init n data' (WArr l') b diag resc d cova neffa refl0 ;; kde_density K prob pdim refl p).
Proof.
  intros H1 H2 H3. eapply res_rel_bind2; [exact (kde_init_perm n data data' l l' b diag resc d cova neffa refl0 H1 H2 H3)|].
  intros K K' [Hs [w [w' [E1 [E2 [E3 [E4 E5]]]]]]]. exact (kde_density_perm K K' prob pdim refl p w w' Hs E1 E2 E3 E4 E5).
Qed.

Lemma kde_weight_scaling c n data l b diag resc d cova neffa refl0 (prob : bool) pdim refl p : 0 < c ->
  res_rel (fun f g : pt -> R => forall x, g x = (if prob then 1 else c) * f x)
    (do K <- kde_init n data (WArr l) b diag resc d cova neffa refl0 ;; kde_density K prob pdim refl p)
    (do K <- kde_init n data (WArr (map (fscale c) l)) b diag resc d cova neffa refl0 ;; kde_density K prob pdim refl p).
Proof.
  intros Hc. eapply res_rel_bind2; [exact (kde_init_wscale c n data l b diag resc d cova neffa refl0 Hc)|].
  intros K K' [Hs [E1 [w [E2 E3]]]]. apply (kde_density_wscale c K K' prob pdim refl p w); auto. lra.
Qed.

Lemma kde_units n data w b diag resc d neffa refl0 (prob : bool) refl s c : (forall i, 0 < c i) ->
  res_rel (fun f g : pt -> R => forall x, g (aff s c x) * rprod n c = f x)
    (do K <- kde_init n data w b diag resc d None neffa refl0 ;; kde_density K prob n refl PNone)
    (do K <- kde_init n (map (aff s c) data) w b diag resc d None neffa (option_map (aff_refl s c 0) refl0) ;;
     kde_density K prob n (option_map (aff_refl s c 0) refl) PNone).
Proof.
  intros Hc. eapply res_rel_bind2; [exact (kde_init_aff n data w b diag resc d neffa refl0 s c Hc)|].
  intros K K' [En [En' [Ed [Ew [_ [Hk Hr]]]]]].
  assert (En2 : kd_ndim K' = kd_ndim K) by congruence.
  pose proof (kde_density_aff K K' prob n refl PNone s c Hc En2 Ed Ew Hk Hr) as H. cbn [resolve_params] in H. exact H.
Qed.

Lemma kde_units_params n data w b diag resc d neffa refl0 (prob : bool) refl ps s c : (forall i, 0 < c i) -> n <> 1%nat ->
  let s' := fun i => s (nth i ps O) in let c' := fun i => c (nth i ps O) in
  res_rel (fun f g : pt -> R => forall x, g (aff s' c' x) * rprod (length ps) c' = f x)
    (do K <- kde_init n data w b diag resc d None neffa refl0 ;; kde_density K prob (length ps) refl (PList ps))
    (do K <- kde_init n (map (aff s c) data) w b diag resc d None neffa (option_map (aff_refl s c 0) refl0) ;;
     kde_density K prob (length ps) (option_map (aff_refl s' c' 0) refl) (PList ps)).
Proof.
  intros Hc Hn s' c'. eapply res_rel_bind2; [exact (kde_init_aff n data w b diag resc d neffa refl0 s c Hc)|].
  intros K K' [En [En' [Ed [Ew [_ [Hk Hr]]]]]].
  assert (En2 : kd_ndim K' = kd_ndim K) by congruence.
  pose proof (kde_density_aff K K' prob (length ps) refl (PList ps) s c Hc En2 Ed Ew Hk Hr) as H.
  assert (Hrp : resolve_params K (PList ps) = if forallb (fun q => Nat.ltb q n) ps then Ok (Some ps) else Err IndexError).
  { unfold resolve_params. rewrite En. destruct (Nat.eqb_spec n 1); [contradiction|reflexivity]. }
  rewrite Hrp in H. destruct (forallb (fun q => Nat.ltb q n) ps) eqn:Ef; [exact H|].
  unfold kde_density. rewrite Hrp. 
  assert (Hrp' : resolve_params K' (PList ps) = Err IndexError).
  { unfold resolve_params. rewrite En', Ef. destruct (Nat.eqb_spec n 1); [contradiction|reflexivity]. }
  rewrite Hrp'. reflexivity.
Qed.

(* ---------------------------------------------------------------- C05 *)
Lemma kde_repeats K K' (prob : bool) pdim refl p ks :
  kd_ndim K' = kd_ndim K -> kd_kernel K' = kd_kernel K -> kd_reflect K' = kd_reflect K ->
  length ks = length (kd_data K) -> kd_weights K = Some (map INR ks) -> kd_weights K' = None ->
  kd_data K' = flat_map (fun dk => repeat (fst dk) (snd dk)) (combine (kd_data K) ks) ->
  res_rel (fun f g => forall x, f x = g x) (kde_density K prob pdim refl p) (kde_density K' prob pdim refl p).
Proof.
  intros En Ek Er Hl Ew Ew' Ed. unfold kde_density.
  assert (Hrp : resolve_params K' p = resolve_params K p) by (unfold resolve_params; rewrite En; reflexivity).
  rewrite Hrp, En, Ek, Er, Ew, Ew'. destruct (resolve_params K p) as [ops|]; [|reflexivity]. cbn [bind].
  destruct (match _ with Some r => _ | None => false end); [reflexivity|].
  destruct (kd_kernel K) as [kern|]; [|reflexivity].
  set (data := match ops with None => kd_data K | Some ps => map (select ps) (kd_data K) end).
  set (data' := match ops with None => kd_data K' | Some ps => map (select ps) (kd_data K') end).
  assert (Hdl : length ks = length data) by (unfold data; destruct ops; rewrite ?map_length; exact Hl).
  assert (Hd : data' = flat_map (fun dk => repeat (fst dk) (snd dk)) (combine data ks)).
  { unfold data', data. rewrite Ed. destruct ops as [ps|]; [|reflexivity].
    clear. generalize (kd_data K). intros l. revert ks. induction l as [|a l IH]; intros [|k ks]; cbn; try reflexivity.
    rewrite map_app, IH. f_equal. clear. induction k; cbn; [reflexivity|]. f_equal. exact IHk. }
  eapply res_rel_bind2.
  - rewrite Hd. exact (kernel_density_repeat kern pdim _ data ks _ ops Hdl).
  - intros f g Hfg. cbn [res_rel]. intros x.
    assert (Etot : lsum (map INR ks) = INR (length (kd_data K'))).
    { rewrite Ed. clear - Hl. revert ks Hl. generalize (kd_data K). induction l as [|a l IH]; intros [|k ks] H; try discriminate; [reflexivity|].
      cbn [combine flat_map map fst snd]. rewrite app_length, plus_INR, repeat_length, lsum_cons. f_equal. apply IH. cbn in H. congruence. }
    destruct prob; rewrite ?Etot, Hfg; reflexivity.
Qed.

(* ---------------------------------------------------------------- degenerate data *)
Lemma quad_cov n wd v : 
  quad n (fun i j => sumf (fun dw : pt * R => snd dw * (fst dw i - wmean wd i) * (fst dw j - wmean wd j)) wd / cov_fact wd) v
  = sumf (fun dw : pt * R => snd dw * (rsum n (fun i => v i * (fst dw i - wmean wd i)) * rsum n (fun i => v i * (fst dw i - wmean wd i)))) wd / cov_fact wd.
Proof.
  unfold quad.
  transitivity (rsum n (fun i => rsum n (fun j => sumf (fun dw : pt * R => snd dw * (v i * (fst dw i - wmean wd i)) * (v j * (fst dw j - wmean wd j))) wd * / cov_fact wd))).
  { apply rsum_ext; intros i Hi. apply rsum_ext; intros j Hj. unfold Rdiv.
    replace (v i * (sumf (fun dw : pt * R => snd dw * (fst dw i - wmean wd i) * (fst dw j - wmean wd j)) wd * / cov_fact wd) * v j)
      with (v i * v j * sumf (fun dw : pt * R => snd dw * (fst dw i - wmean wd i) * (fst dw j - wmean wd j)) wd * / cov_fact wd) by ring.
    rewrite <- sumf_scal. f_equal. apply sumf_ext. intros dw _. ring. }
  unfold Rdiv. rewrite (rsum_ext n _ (fun i => rsum n (fun j => sumf (fun dw : pt * R => snd dw * (v i * (fst dw i - wmean wd i)) * (v j * (fst dw j - wmean wd j))) wd) * / cov_fact wd))
    by (intros; apply rsum_scal_r).
  rewrite rsum_scal_r. f_equal.
  rewrite (rsum_ext n _ (fun i => sumf (fun dw : pt * R => rsum n (fun j => snd dw * (v i * (fst dw i - wmean wd i)) * (v j * (fst dw j - wmean wd j)))) wd))
    by (intros; symmetry; apply (sumf_rsum_swap (fun (dw : pt * R) j => _))).
  rewrite <- (sumf_rsum_swap (fun (dw : pt * R) i => rsum n (fun j => snd dw * (v i * (fst dw i - wmean wd i)) * (v j * (fst dw j - wmean wd j)))) wd n).
  apply sumf_ext. intros dw _.
  rewrite (rsum_ext n _ (fun i => snd dw * (v i * (fst dw i - wmean wd i)) * rsum n (fun j => v j * (fst dw j - wmean wd j))))
    by (intros; apply rsum_scal).
  rewrite rsum_scal_r.
  rewrite rsum_scal. ring.
Qed.

Lemma np_cov_sym n wd C : np_cov wd = Some C -> symmetric n C.
Proof.
  unfold np_cov. destruct (Rleb _ _); [discriminate|]. intros E; injection E as <-. intros i j _ _.
  f_equal. apply sumf_ext. intros dw _. ring.
Qed.

Lemma wmean_dot n wd v : sumf (snd (B := R)) wd <> 0 ->
  rsum n (fun i => v i * wmean wd i) * sumf snd wd = sumf (fun dw : pt * R => snd dw * rsum n (fun i => v i * fst dw i)) wd.
Proof.
  intros Hs. unfold wmean. rewrite <- rsum_scal_r.
  rewrite (rsum_ext n _ (fun i => sumf (fun dw : pt * R => v i * (snd dw * fst dw i)) wd)).
  - rewrite <- (sumf_rsum_swap (fun (dw : pt * R) i => v i * (snd dw * fst dw i))). apply sumf_ext. intros dw _.
    rewrite <- rsum_scal. apply rsum_ext; intros; ring.
  - intros i Hi. rewrite sumf_scal. field. exact Hs.
Qed.

Lemma np_cov_posdef n data ws C : length ws = length data -> (forall v, In v ws -> 0 <= v) -> 0 < lsum ws ->
  np_cov (combine data ws) = Some C -> (posdef n C <-> ~ degenerate n data ws).
Proof.
  intros Hl Hnn Hpos. unfold np_cov. destruct (Rleb_spec (cov_fact (combine data ws)) 0) as [|Hf]; [discriminate|].
  intros E; injection E as <-. assert (Hf' : 0 < cov_fact (combine data ws)) by lra. clear Hf.
  assert (Hsum : sumf (snd (B := R)) (combine data ws) = lsum ws) by (unfold sumf; rewrite map_snd_combine by exact Hl; reflexivity).
  set (wd := combine data ws) in *.
  assert (Hw : forall p w, In (p, w) wd -> 0 <= w) by (intros p w H; apply Hnn; apply in_combine_r in H; exact H).
  split.
  - intros HP [v [c [Hv Hc]]]. specialize (HP v Hv). rewrite quad_cov in HP.
    assert (Hm : rsum n (fun i => v i * wmean wd i) = c).
    { apply Rmult_eq_reg_r with (lsum ws); [|lra]. rewrite <- Hsum at 1. rewrite wmean_dot by lra.
      rewrite <- Hsum, <- sumf_scal. apply sumf_ext. intros [p w] Hin. cbn [fst snd].
      destruct (Req_dec w 0) as [->|Hw0]; [ring|]. rewrite (Hc p w Hin Hw0). ring. }
    assert (E0 : sumf (fun dw : pt * R => snd dw * (rsum n (fun i => v i * (fst dw i - wmean wd i)) * rsum n (fun i => v i * (fst dw i - wmean wd i)))) wd = 0).
    { apply sumf_zero. intros [p w] Hin. cbn [fst snd]. destruct (Req_dec w 0) as [->|Hw0]; [ring|].
      rewrite (rsum_ext n _ (fun i => v i * p i - v i * wmean wd i)) by (intros; ring).
      rewrite rsum_minus, (Hc p w Hin Hw0), Hm. ring. }
    rewrite E0 in HP. unfold Rdiv in HP. lra.
  - intros Hnd v Hv. rewrite quad_cov. apply Rdiv_lt_0_compat; [|exact Hf'].
    assert (Hge : 0 <= sumf (fun dw : pt * R => snd dw * (rsum n (fun i => v i * (fst dw i - wmean wd i)) * rsum n (fun i => v i * (fst dw i - wmean wd i)))) wd).
    { apply sumf_nonneg. intros [p w] Hin. cbn [fst snd]. apply Rmult_le_pos; [exact (Hw p w Hin)|apply Rle_0_sqr]. }
    destruct Hge as [|E0]; [assumption|exfalso]. apply Hnd.
    exists v, (rsum n (fun i => v i * wmean wd i)). split; [exact Hv|]. intros p w Hin Hw0.
    pose proof (sumf_ge_term (fun dw : pt * R => snd dw * (rsum n (fun i => v i * (fst dw i - wmean wd i)) * rsum n (fun i => v i * (fst dw i - wmean wd i)))) wd (p, w)) as Hge.
    rewrite <- E0 in Hge. cbn [fst snd] in Hge.
    assert (Hle : w * (rsum n (fun i => v i * (p i - wmean wd i)) * rsum n (fun i => v i * (p i - wmean wd i))) <= 0).
    { apply Hge; [|exact Hin]. intros [q u] Hq. cbn [fst snd]. apply Rmult_le_pos; [exact (Hw q u Hq)|apply Rle_0_sqr]. }
    assert (Hz : rsum n (fun i => v i * (p i - wmean wd i)) = 0).
    { pose proof (Hw p w Hin). set (t := rsum n _) in *. assert (Hw1 : 0 < w) by lra.
      assert (Ht : t * t <= 0) by (apply Rmult_le_reg_l with w; lra).
      pose proof (Rle_0_sqr t) as Hq. unfold Rsqr in Hq. apply Rsqr_0_uniq. unfold Rsqr. lra. }
    rewrite (rsum_ext n _ (fun i => v i * p i - v i * wmean wd i)) in Hz by (intros; ring).
    rewrite rsum_minus in Hz. lra.
Qed.

Lemma cov_fact_nnz data ws : length ws = length data -> (forall v, In v ws -> 0 <= v) -> 0 < lsum ws ->
  (0 < cov_fact (combine data ws) <-> (2 <= nnz ws)%nat).
Proof.
  intros Hl Hnn Hpos. 
  assert (E : cov_fact (combine data ws) * lsum ws = pgap ws).
  { unfold cov_fact, pgap. 
    assert (E1 : sumf (snd (B := R)) (combine data ws) = lsum ws) by (unfold sumf; rewrite map_snd_combine by exact Hl; reflexivity).
    assert (E2 : sumf (fun dw : pt * R => snd dw * snd dw) (combine data ws) = sumsq ws).
    { unfold sumsq. rewrite <- (map_snd_combine data ws Hl) at 2. rewrite sumf_map. reflexivity. }
    rewrite E1, E2. field. lra. }
  pose proof (pgap_zero ws Hnn) as Hz. pose proof (pgap_nonneg ws Hnn) as Hp.
  split.
  - intros Hf. assert (0 < pgap ws) by nra. destruct (Nat.le_gt_cases 2 (nnz ws)); [assumption|].
    assert (pgap ws = 0) by (apply Hz; lia). lra.
  - intros Hn. assert (pgap ws <> 0) by (intros E0; apply Hz in E0; lia). nra.
Qed.

Lemma posdef_scale_const n c C : 0 < c -> (posdef n (fun i j => C i j * c) <-> posdef n C).
Proof.
  intros Hc. 
  assert (E : forall v, quad n (fun i j => C i j * c) v = c * quad n C v).
  { intros v. unfold quad. rewrite <- rsum_scal. apply rsum_ext; intros i _. rewrite <- rsum_scal.
    apply rsum_ext; intros j _. ring. }
  split; intros H v Hv; specialize (H v Hv); rewrite E in *; nra.
Qed.

Lemma kde_default_density n data w ws d K (prob : bool) :
  weights_given w data ws ->
  kde_init n data w BwNone false None d None None None = Ok K ->
  ((nnz ws <= 1)%nat -> kde_density K prob n None PNone = Err ValueError)
  /\ ((2 <= nnz ws)%nat -> degenerate n data ws -> kde_density K prob n None PNone = Err LinAlgError)
  /\ ((2 <= nnz ws)%nat -> ~ degenerate n data ws -> exists f, kde_density K prob n None PNone = Ok f).
Proof.
  intros Hg HK.
  destruct (kde_weights_of _ _ _ _ _ _ _ _ _ _ _ _ Hg HK) as [En [Ed [Hne [Er [Ewl [Hl [Hnn [Hpos Etot]]]]]]]].
  destruct (kde_init_inv _ _ _ _ _ _ _ _ _ _ _ HK) as [bw [_ [_ [_ [_ [_ [_ [Hbw Hk]]]]]]]].
  unfold wdata_of in Hk. rewrite Ewl in Hk.
  pose proof (cov_fact_nnz data ws Hl Hnn Hpos) as Hcf.
  assert (Ebw : bw = fun _ _ => scott (kd_neff K) n).
  { unfold set_bandwidth, compute_bandwidth in Hbw. cbn in Hbw. injection Hbw as <-. reflexivity. }
  destruct (np_cov (combine data ws)) as [C|] eqn:EC.
  - assert (Hnz : (2 <= nnz ws)%nat).
    { apply Hcf. unfold np_cov in EC. destruct (Rleb_spec (cov_fact (combine data ws)) 0); [discriminate|lra]. }
    set (M := kernel_matrix C bw) in *.
    pose proof (np_cov_sym n _ _ EC) as HCs.
    assert (HMs : symmetric n M).
    { intros i j Hi Hj. unfold M, kernel_matrix. rewrite Ebw, (HCs i j Hi Hj). reflexivity. }
    assert (HMp : posdef n M <-> ~ degenerate n data ws).
    { rewrite <- (np_cov_posdef n data ws C Hl Hnn Hpos EC). unfold M, kernel_matrix. rewrite Ebw.
      apply posdef_scale_const. pose proof (proj1 (scott_facts n) (kd_neff K)). nra. }
    split; [lia|split; intros _ Hd].
    + apply (kde_not_posdef n data w ws BwNone false None d None None K M prob Hg HK Hk HMs). rewrite HMp. tauto.
    + destruct (kernel_density_plain d n M data (Some ws) HMs (proj2 HMp Hd)) as [N' [W [_ [_ [_ [_ [_ Hkd]]]]]]].
      { intros w' E'. injection E' as <-. exact Hl. }
      rewrite <- En in Hk. pose proof (kde_density_plain K d M prob Hk Er) as P1.
      rewrite En, Ed, kernel_density_wlist, Ewl, Hkd in P1. cbn [bind] in P1. eexists. exact P1.
  - assert (Hnz : ~ (2 <= nnz ws)%nat).
    { rewrite <- Hcf. unfold np_cov in EC. destruct (Rleb_spec (cov_fact (combine data ws)) 0); [lra|discriminate]. }
    split; [intros _|split; intros; contradiction].
    unfold kde_density. cbn [resolve_params bind]. rewrite Er, Hk. reflexivity.
Qed.

(* ---------------------------------------------------------------- C25 *)
(** Elementwise: the matrix of the kernel of a successful construction. *)
Lemma kde_matrix_cases n data w b (diag : bool) d C neffa refl K :
  kde_init n data w b diag None d (Some C) neffa refl = Ok K ->
  exists kern, kd_kernel K = Some kern /\ k_dist kern = d /\ k_ndim kern = n
  /\ (forall h, b = BwAtom (BNum h) -> forall i j, k_matrix kern i j = if diag then (if Nat.eqb i j then h * h * C i j else 0) else h * h * C i j)
  /\ (forall hs, b = BwSeq (map BNum hs) -> length hs = n /\ n <> 1%nat
        /\ forall i j, k_matrix kern i j = if Nat.eqb i j then nth i hs 0 * nth i hs 0 * C i i else 0)
  /\ (forall isarr rows, b = BwMat isarr rows -> isarr = true /\ length rows = n /\ (forall r, In r rows -> length r = n) /\ n <> 1%nat
        /\ forall i j, k_matrix kern i j = nth j (nth i rows []) 0 * nth j (nth i rows []) 0 * C i j).
Proof.
  intros HK. destruct (kde_init_inv _ _ _ _ _ _ _ _ _ _ _ HK) as [bw [_ [_ [_ [_ [_ [_ [Hbw Hk]]]]]]]].
  exists (mkKernel d n (kernel_matrix C bw)). split; [exact Hk|]. cbn [k_dist k_ndim k_matrix].
  split; [reflexivity|split; [reflexivity|]]. repeat split.
  - intros h -> i j. cbn in Hbw. injection Hbw as <-. unfold kernel_matrix, diag_of. destruct diag; [|ring].
    destruct (Nat.eqb i j); ring.
  - subst b. unfold set_bandwidth in Hbw. rewrite map_length in Hbw.
    destruct (Nat.eqb_spec (length hs) 1); [discriminate|]. destruct (Nat.eqb_spec (length hs) n); [assumption|discriminate].
  - subst b. unfold set_bandwidth in Hbw. rewrite map_length in Hbw.
    destruct (Nat.eqb_spec (length hs) 1); [discriminate|]. destruct (Nat.eqb_spec (length hs) n); [congruence|discriminate].
  - subst b. intros i j. unfold set_bandwidth in Hbw. rewrite map_length in Hbw.
    destruct (Nat.eqb_spec (length hs) 1); [discriminate|]. destruct (Nat.eqb_spec (length hs) n); [|discriminate].
    assert (Em : mapM (compute_bandwidth (kd_neff K) n) (map BNum hs) = Ok hs).
    { clear. induction hs as [|a hs IH]; [reflexivity|]. cbn [map mapM compute_bandwidth bind]. rewrite IH. reflexivity. }
    rewrite Em in Hbw. cbn [bind] in Hbw. injection Hbw as <-. unfold kernel_matrix, diag_of.
    destruct (Nat.eqb_spec i j) as [->|]; ring.
  - subst b. unfold set_bandwidth in Hbw. destruct (Nat.eqb (length rows) 1); [discriminate|].
    destruct (andb _ _); [|discriminate]. destruct isarr; [reflexivity|discriminate].
  - subst b. unfold set_bandwidth in Hbw. destruct (Nat.eqb (length rows) 1); [discriminate|].
    destruct (Nat.eqb_spec (length rows) n); [assumption|discriminate].
  - subst b. intros r Hr. unfold set_bandwidth in Hbw. destruct (Nat.eqb (length rows) 1); [discriminate|].
    destruct (Nat.eqb (length rows) n); [|discriminate]. cbn [andb] in Hbw.
    destruct (forallb _ rows) eqn:Ef; [|discriminate]. rewrite forallb_forall in Ef. apply Nat.eqb_eq, Ef, Hr.
  - subst b. unfold set_bandwidth in Hbw. destruct (Nat.eqb_spec (length rows) 1); [discriminate|].
    destruct (Nat.eqb_spec (length rows) n); [congruence|discriminate].
  - subst b. intros i j. unfold set_bandwidth in Hbw. destruct (Nat.eqb (length rows) 1); [discriminate|].
    destruct (andb _ _); [|discriminate]. destruct isarr; [|discriminate]. injection Hbw as <-.
    unfold kernel_matrix. ring.
Qed.

Lemma compute_bandwidth_ok neff n a : bw_entry_ok a <-> exists r, compute_bandwidth neff n a = Ok r.
Proof.
  destruct a as [s|r|]; cbn [bw_entry_ok compute_bandwidth].
  - destruct (String.eqb_spec s "scott"); [split; eauto|].
    destruct (String.eqb_spec s "silverman"); [split; eauto|]. split; [tauto|intros [r H]; discriminate].
  - split; eauto.
  - split; [tauto|intros [r H]; discriminate].
Qed.
Lemma compute_bandwidth_err neff n a e : compute_bandwidth neff n a = Err e -> e = ValueError.
Proof. destruct a as [s|r|]; cbn; [destruct (String.eqb s _); [discriminate|destruct (String.eqb s _); [discriminate|]]| |]; congruence. Qed.

Lemma mapM_bw_ok neff n l : (forall a, In a l -> bw_entry_ok a) <-> exists rs, mapM (compute_bandwidth neff n) l = Ok rs.
Proof.
  induction l as [|a l IH]; cbn [mapM]; [split; [eauto|intros _ a []]|]. split.
  - intros H. destruct (proj1 (compute_bandwidth_ok neff n a) (H a (or_introl eq_refl))) as [r Hr].
    destruct (proj1 IH (fun b Hb => H b (or_intror Hb))) as [rs Hrs]. rewrite Hr, Hrs. cbn [bind]. eauto.
  - intros [rs H]. destruct (compute_bandwidth neff n a) as [r|] eqn:Er; [|discriminate]. cbn [bind] in H.
    destruct (mapM _ l) as [rs'|] eqn:Ers; [|discriminate].
    intros b [<-|Hb]; [apply (compute_bandwidth_ok neff n); eauto|]. apply IH; [eauto|exact Hb].
Qed.
Lemma mapM_bw_err neff n l e : mapM (compute_bandwidth neff n) l = Err e -> e = ValueError.
Proof.
  induction l as [|a l IH]; cbn [mapM]; [discriminate|].
  destruct (compute_bandwidth neff n a) as [r|] eqn:Er; cbn [bind].
  - destruct (mapM _ l); [discriminate|]. cbn. intros E; injection E as <-. apply IH. reflexivity.
  - intros E; injection E as <-. exact (compute_bandwidth_err _ _ _ _ Er).
Qed.

Lemma set_bandwidth_ok neff n diag b resc : (bw_ok n b <-> exists bw, set_bandwidth neff n diag b resc = Ok bw).
Proof.
  destruct b as [|a|l|isarr rows]; cbn [bw_ok]; unfold set_bandwidth.
  - split; [intros _|auto]. cbn. eauto.
  - rewrite (compute_bandwidth_ok neff n). split; intros [r H].
    + rewrite H. cbn [bind]. eauto.
    + destruct (compute_bandwidth neff n a); [eauto|discriminate].
  - destruct (Nat.eqb_spec (length l) 1) as [E1|E1].
    { split; [intros [H1 [H2 _]]; congruence|intros [r H]; discriminate]. }
    destruct (Nat.eqb_spec (length l) n) as [E2|E2].
    2:{ split; [intros [H1 _]; congruence|intros [r H]; discriminate]. }
    rewrite (mapM_bw_ok neff n). split.
    + intros [_ [_ [rs H]]]. rewrite H. cbn [bind]. eauto.
    + intros [r H]. repeat split; [exact E2|congruence|]. destruct (mapM _ l); [eauto|discriminate].
  - destruct (Nat.eqb_spec (length rows) 1) as [E1|E1].
    { split; [intros [_ [H1 [H2 _]]]; congruence|intros [r H]; discriminate]. }
    destruct (Nat.eqb_spec (length rows) n) as [E2|E2]; cbn [andb].
    2:{ split; [intros [_ [H1 _]]; congruence|intros [r H]; discriminate]. }
    destruct (forallb (fun r => Nat.eqb (length r) n) rows) eqn:Ef.
    + rewrite forallb_forall in Ef. destruct isarr; cbn [bind].
      * split; [intros _; eauto|intros _]. repeat split; [exact E2|congruence|]. intros r Hr. apply Nat.eqb_eq, Ef, Hr.
      * split; [intros [H _]; discriminate|intros [r H]; discriminate].
    + split; [|intros [r H]; discriminate]. intros [_ [_ [_ H]]].
      assert (forallb (fun r => Nat.eqb (length r) n) rows = true).
      { apply forallb_forall. intros r Hr. apply Nat.eqb_eq, H, Hr. }
      congruence.
Qed.

Lemma set_bandwidth_err neff n diag b resc e : set_bandwidth neff n diag b resc = Err e ->
  e = ValueError \/ (e = TypeError /\ exists rows, b = BwMat false rows /\ length rows = n).
Proof.
  destruct b as [|a|l|isarr rows]; unfold set_bandwidth.
  - discriminate.
  - destruct (compute_bandwidth neff n a) eqn:E; [discriminate|]. cbn. intros E'; injection E' as <-.
    left. exact (compute_bandwidth_err _ _ _ _ E).
  - destruct (Nat.eqb (length l) 1); [cbn; intros E; left; congruence|].
    destruct (Nat.eqb (length l) n); [|cbn; intros E; left; congruence].
    destruct (mapM _ l) eqn:Em; [discriminate|]. cbn. intros E'; injection E' as <-. left. exact (mapM_bw_err _ _ _ _ Em).
  - destruct (Nat.eqb (length rows) 1); [cbn; intros E; left; congruence|].
    destruct (Nat.eqb_spec (length rows) n); cbn [andb]; [|cbn; intros E; left; congruence].
    destruct (forallb _ rows); [|cbn; intros E; left; congruence].
    destruct isarr; [discriminate|]. cbn. intros E; injection E as <-. right. eauto.
Qed.

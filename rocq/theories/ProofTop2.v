(** The reflection and projection results for constructed KDEs. *)
From Coquelicot Require Import Coquelicot.
From Coq Require Import Permutation FunctionalExtensionality String.
From Verif Require Import Base ModelLinAlg SpecLinAlg ProofLinAlg SpecIntegral ProofIntegral
  ModelKernels SpecKernels ProofKernels ModelKDE SpecKDE ProofDensity ProofAffine ProofReflect1
  ProofMarginal ProofKDE ProofTop ProofMarginal2 ProofExamples ModelExtrema SpecNormal ProofNormal ProofExtrema.
Open Scope R_scope.
Notation length := List.length.

Lemma built_inv n data ws d M refl K : built_kde n data ws d M refl K ->
  kd_ndim K = n /\ kd_data K = data /\ data <> [] /\ kd_reflect K = refl
  /\ wlist data (kd_weights K) = ws /\ length ws = length data /\ (forall v, In v ws -> 0 <= v)
  /\ 0 < lsum ws /\ (match kd_weights K with None => INR (length data) | Some w => lsum w end) = lsum ws
  /\ kd_kernel K = Some (mkKernel d n M) /\ symmetric n M /\ posdef n M.
Proof.
  intros [[w [b [diag [resc [cova [neffa [Hg HK]]]]]]] [Hk [Hs Hp]]].
  destruct (kde_weights_of _ _ _ _ _ _ _ _ _ _ _ _ Hg HK) as (H1 & H2 & H3 & H4 & H5 & H6 & H7 & H8 & H9).
  tauto.
Qed.

Definition scaled (prob : bool) (ws : list R) (f : pt -> R) : pt -> R :=
  if prob then fun x => f x / lsum ws else f.

Lemma scaled_val prob ws f x : 0 < lsum ws -> scaled prob ws f x = mass prob ws / lsum ws * f x.
Proof. intros H. unfold scaled, mass. destruct prob; [unfold Rdiv; ring|]. field. lra. Qed.

Lemma scaled_tint n (prob : bool) ws f base l : 0 < lsum ws -> is_tintN n f base (lsum ws * l) ->
  is_tintN n (scaled prob ws f) base (mass prob ws * l).
Proof.
  intros Hp H. apply (tintN_scal _ (mass prob ws / lsum ws)) in H.
  replace (mass prob ws / lsum ws * (lsum ws * l)) with (mass prob ws * l) in H by (field; lra).
  apply tintN_ext with (2 := H). intros x. symmetry. apply scaled_val. exact Hp.
Qed.

Lemma density_as_kernel n data ws d M refl K (prob : bool) r :
  built_kde n data ws d M refl K ->
  kde_density K prob n r PNone =
  (let r1 := match r with Some _ => r | None => refl end in
   if (match r1 with Some l => negb (Nat.eqb (length l) n) | None => false end) then Err ValueError
   else do f <- kernel_density (mkKernel d n M) n n data (Some ws) r1 None ;; Ok (scaled prob ws f)).
Proof.
  intros HB. destruct (built_inv _ _ _ _ _ _ _ HB) as (En & Ed & Hne & Er & Ew & Hl & Hnn & Hp & Et & Ek & Hs & Hpd).
  unfold kde_density. cbn [resolve_params bind]. rewrite En, Er, Ek, Ed.
  assert (E : (match r with Some r0 => Some r0 | None => match refl with None => None | Some r0 => Some r0 end end)
            = match r with Some _ => r | None => refl end).
  { destruct r; [reflexivity|]. destruct refl; reflexivity. }
  rewrite E. cbv zeta. destruct (match _ with Some l => _ | None => false end); [reflexivity|].
  rewrite kernel_density_wlist, Ew. 
  destruct (kernel_density _ _ _ _ _ _ _) as [f|]; [|reflexivity]. cbn [bind].
  unfold scaled. destruct prob; [|reflexivity]. rewrite Et. reflexivity.
Qed.

Lemma density_as_kernel_params n data ws d M K (prob : bool) ps :
  built_kde n data ws d M None K -> n <> 1%nat -> (forall q, In q ps -> (q < n)%nat) ->
  kde_density K prob (length ps) None (PList ps) =
  (do f <- kernel_density (mkKernel d n M) (length ps) (length ps) (map (select ps) data) (Some ws) None (Some ps) ;;
   Ok (scaled prob ws f)).
Proof.
  intros HB Hn1 Hq. destruct (built_inv _ _ _ _ _ _ _ HB) as (En & Ed & Hne & Er & Ew & Hl & Hnn & Hp & Et & Ek & Hs & Hpd).
  unfold kde_density.
  assert (Hrp : resolve_params K (PList ps) = Ok (Some ps)).
  { unfold resolve_params. rewrite En. destruct (Nat.eqb_spec n 1); [contradiction|].
    assert (E : forallb (fun q => Nat.ltb q n) ps = true) by (apply forallb_forall; intros q Hin; apply Nat.ltb_lt, Hq, Hin).
    rewrite E. reflexivity. }
  rewrite Hrp. cbn [bind]. rewrite Er, Ek, Ed.
  assert (Ewl : kernel_density (mkKernel d n M) (length ps) (length ps) (map (select ps) data) (kd_weights K) None (Some ps)
              = kernel_density (mkKernel d n M) (length ps) (length ps) (map (select ps) data) (Some ws) None (Some ps)).
  { rewrite kernel_density_wlist. f_equal. f_equal. rewrite <- Ew. unfold wlist. destruct (kd_weights K); [reflexivity|].
    rewrite map_map. reflexivity. }
  rewrite Ewl. clear Ewl. destruct (kernel_density _ _ _ _ _ _ _) as [f|]; [|reflexivity]. cbn [bind].
  unfold scaled. destruct prob; [|reflexivity]. rewrite Et. reflexivity.
Qed.

Lemma density_plain_ex n data ws d M K (prob : bool) : built_kde n data ws d M None K ->
  exists f, kernel_density (mkKernel d n M) n n data (Some ws) None None = Ok f
    /\ kde_density K prob n None PNone = Ok (scaled prob ws f).
Proof.
  intros HB. destruct (built_inv _ _ _ _ _ _ _ HB) as (En & Ed & Hne & Er & Ew & Hl & Hnn & Hp & Et & Ek & Hs & Hpd).
  destruct (kernel_density_plain d n M data (Some ws) Hs Hpd) as [N [W [_ [_ [_ [_ [_ Hf]]]]]]].
  { intros w' E; injection E as <-; exact Hl. }
  eexists. split; [exact Hf|]. rewrite (density_as_kernel _ _ _ _ _ _ _ prob None HB). cbv zeta. rewrite Hf. reflexivity.
Qed.

Lemma density_refl_as n data ws d M refl K (prob : bool) (r : reflspec) g : built_kde n data ws d M refl K -> length r = n ->
  kde_density K prob n (Some r) PNone = Ok g ->
  exists f, kernel_density (mkKernel d n M) n n data (Some ws) (Some r) None = Ok f /\ g = scaled prob ws f.
Proof.
  intros HB Hr. rewrite (density_as_kernel _ _ _ _ _ _ _ prob (Some r) HB). cbv beta iota zeta. destruct (Nat.eqb_spec (length r) n) as [_|HH]; [|contradiction (HH Hr)]. cbn [negb].
  destruct (kernel_density _ _ _ _ _ _ _) as [f|]; [|discriminate]. cbn [bind]. intros E; injection E as <-. eauto.
Qed.

(* C01, C08 *)
Lemma top_textbook n data ws d M K N : (1 <= n)%nat -> built_kde n data ws d M None K -> is_inverse n M N ->
  exists Z f g, 0 < Z
    /\ (forall base, is_tintN n (fun y => spec_prof d (quad n N y)) base Z)
    /\ kde_density K false n None PNone = Ok f /\ kde_pdf K n None PNone = Ok g
    /\ forall x, f x = spec_sum d n N (combine data ws) x / Z /\ g x = f x / lsum ws.
Proof.
  intros Hn HB HN. destruct HB as [[w [b [diag [resc [cova [neffa [Hg HK]]]]]]] [Hk [Hs Hp]]].
  exact (kde_textbook n data w ws b diag resc d cova neffa K M N Hn Hg HK Hk Hs Hp HN).
Qed.
Lemma top_bounded n data ws d M K N Z base f x : (1 <= n)%nat -> built_kde n data ws d M None K -> is_inverse n M N ->
  is_tintN n (fun y => spec_prof d (quad n N y)) base Z -> kde_density K false n None PNone = Ok f ->
  f x <= lsum ws * (spec_prof d 0 / Z).
Proof.
  intros Hn HB HN. destruct HB as [[w [b [diag [resc [cova [neffa [Hg HK]]]]]]] [Hk [Hs Hp]]].
  exact (kde_bounded n data w ws b diag resc d cova neffa K M N Z base f x Hn Hg HK Hk Hs Hp HN).
Qed.
Lemma top_integral n data ws d M K (prob : bool) base : (1 <= n)%nat -> built_kde n data ws d M None K ->
  exists f, kde_density K prob n None PNone = Ok f /\ is_tintN n f base (mass prob ws).
Proof.
  intros Hn HB. destruct (built_inv _ _ _ _ _ _ _ HB) as (En & Ed & Hne & Er & Ew & Hl & Hnn & Hp & Et & Ek & Hs & Hpd).
  destruct (density_integral d n M data ws base Hn Hs Hpd Hl) as [f [Hf Hi]].
  destruct (density_plain_ex _ _ _ _ _ _ prob HB) as [f' [Hf' HD]]. rewrite Hf in Hf'. injection Hf' as <-.
  exists (scaled prob ws f). split; [exact HD|]. rewrite <- (Rmult_1_r (mass prob ws)). apply scaled_tint; [exact Hp|].
  rewrite Rmult_1_r. exact Hi.
Qed.

(* C09 *)
Lemma top_finite_support n data ws d M K (prob : bool) f x i : built_kde n data ws d M None K -> finite d = true -> (i < n)%nat ->
  kde_density K prob n None PNone = Ok f ->
  (forall p, In p data -> sqrt (M i i) < Rabs (x i - p i)) -> f x = 0.
Proof.
  intros HB Hf Hi HD Hx. destruct (built_inv _ _ _ _ _ _ _ HB) as (En & Ed & Hne & Er & Ew & Hl & Hnn & Hp & Et & Ek & Hs & Hpd).
  destruct (density_plain_ex _ _ _ _ _ _ prob HB) as [g [Hg HD']]. rewrite HD in HD'. injection HD' as ->.
  rewrite scaled_val by exact Hp. rewrite (kernel_density_support d n M data ws g x i Hs Hf Hi Hg Hx). ring.
Qed.
Lemma posdef_diag_pos n M i : posdef n M -> (i < n)%nat -> 0 < M i i.
Proof. intros H Hi. apply (posdef_diag n M i); assumption. Qed.
Lemma top_extrema_support n data ws d M K ppf ext (prob : bool) f x i : built_kde n data ws d M None K -> finite d = true ->
  kde_extrema K ppf None = Some (Ok ext) -> kde_density K prob n None PNone = Ok f -> (i < n)%nat ->
  (x i < fst (nth i ext (0, 0)) \/ snd (nth i ext (0, 0)) < x i) -> f x = 0.
Proof.
  intros HB Hf He HD Hi Hx. destruct (built_inv _ _ _ _ _ _ _ HB) as (En & Ed & Hne & Er & Ew & Hl & Hnn & Hp & Et & Ek & Hs & Hpd).
  subst n. eapply (finite_zero_outside_extrema K d M ppf ext prob f x i); eauto. rewrite Ed. exact Hne.
Qed.
(* C10 *)
Lemma top_extrema_contain n data ws d M K ppf : built_kde n data ws d M None K -> is_ppf ppf ->
  (finite d = true \/ 2 <= kd_neff K) ->
  exists ext, kde_extrema K ppf None = Some (Ok ext) /\ length ext = n
    /\ forall i p, (i < n)%nat -> In p data -> fst (nth i ext (0, 0)) <= p i <= snd (nth i ext (0, 0)).
Proof.
  intros HB Hppf Hc. destruct (built_inv _ _ _ _ _ _ _ HB) as (En & Ed & Hne & Er & Ew & Hl & Hnn & Hp & Et & Ek & Hs & Hpd).
  subst n. rewrite <- Ed in *.
  assert (Ho : exists out, ext_out d (kd_neff K) ppf = Some out).
  { unfold ext_out. destruct (finite d) eqn:Ef; [eauto|]. destruct Hc as [|Hc]; [discriminate|].
    destruct (Rleb_spec (kd_neff K) 1); [lra|eauto]. }
  destruct Ho as [out Ho]. pose proof (kde_extrema_default K d M ppf out Ek Er Ho) as He.
  eexists. split; [exact He|]. split; [unfold eff_extrema; rewrite !map_length, seq_length; reflexivity|].
  intros i p Hi. revert p.
  destruct (extrema_contain_data K d M ppf i Ek Er Hne Hi (posdef_diag_pos _ _ _ Hpd Hi) Hppf Hc) as [ext [He' H]].
  rewrite He in He'. injection He' as <-. exact H.
Qed.
Lemma top_extrema_gaussian_iff n data ws M K ppf ext i : built_kde n data ws Gaussian M None K -> is_ppf ppf ->
  1 < kd_neff K < 2 -> kde_extrema K ppf None = Some (Ok ext) -> (i < n)%nat ->
  ((forall p, In p data -> fst (nth i ext (0, 0)) <= p i <= snd (nth i ext (0, 0)))
   <-> (forall p q, In p data -> In q data -> p i - q i <= 12 / 10 * sqrt (M i i) * - ppf (1 - 1 / kd_neff K))).
Proof.
  intros HB Hppf Hneff He Hi. destruct (built_inv _ _ _ _ _ _ _ HB) as (En & Ed & Hne & Er & Ew & Hl & Hnn & Hp & Et & Ek & Hs & Hpd).
  subst n. rewrite <- Ed in *.
  assert (Ho : ext_out Gaussian (kd_neff K) ppf = Some (ppf (1 - 1 / kd_neff K) * (12 / 10))).
  { unfold ext_out. cbn [finite]. destruct (Rleb_spec (kd_neff K) 1); [lra|reflexivity]. }
  rewrite (extrema_contain_iff K Gaussian M ppf _ ext i Ek Er Hne Hi (posdef_diag_pos _ _ _ Hpd Hi) Ho He).
  destruct (out_sign_gaussian _ _ _ Hppf Ho) as [_ Hsgn].
  assert (Hno : ~ 0 <= ppf (1 - 1 / kd_neff K) * (12 / 10)) by (rewrite Hsgn; lra).
  assert (Eo : sqrt (M i i) * - (ppf (1 - 1 / kd_neff K) * (12 / 10)) = 12 / 10 * sqrt (M i i) * - ppf (1 - 1 / kd_neff K)) by ring.
  rewrite Eo. split.
  - intros [H|H]; [contradiction|]. intros p q Hp' Hq. pose proof (lmax_ge _ _ (coords_in i _ _ Hp')). pose proof (lmin_le _ _ (coords_in i _ _ Hq)). lra.
  - intros H. right. pose proof (lmin_in _ (coords_nonempty i _ Hne)) as H1. pose proof (lmax_in _ (coords_nonempty i _ Hne)) as H2.
    unfold coords in H1 at 2, H2 at 2. apply in_map_iff in H1. apply in_map_iff in H2.
    destruct H1 as [q [E1 Hq]]. destruct H2 as [p [E2 Hp']]. rewrite <- E1, <- E2. apply H; assumption.
Qed.

(* C11 *)
Lemma top_reflect_one data ws d M refl K (prob : bool) b base : built_kde 1 data ws d M refl K -> (fst b = None \/ snd b = None) ->
  exists f, kde_density K prob 1 (Some [Some b]) PNone = Ok f /\ is_tintN 1 f base (mass prob ws)
    /\ forall x, outside b (x O) = true -> f x = 0.
Proof.
  intros HB Hb. destruct (built_inv _ _ _ _ _ _ _ HB) as (En & Ed & Hne & Er & Ew & Hl & Hnn & Hp & Et & Ek & Hs & Hpd).
  pose proof (posdef_diag_pos 1 M O Hpd ltac:(lia)) as HM.
  destruct (reflect_conserves_one d M data ws b base HM Hl Hb) as [f [Hf Hi]].
  exists (scaled prob ws f). split; [|split].
  - rewrite (density_as_kernel _ _ _ _ _ _ _ prob (Some [Some b]) HB). cbn [length Nat.eqb negb]. rewrite Hf. reflexivity.
  - rewrite <- (Rmult_1_r (mass prob ws)). apply scaled_tint; [exact Hp|]. rewrite Rmult_1_r. exact Hi.
  - intros x Hx. rewrite scaled_val by exact Hp.
    rewrite (reflect_outside_last (mkKernel d 1 M) 1 1 data (Some ws) [] b 0 None f x Hf Hx). ring.
Qed.
Lemma top_reflect_two data ws d M refl K (prob : bool) lo hi base : built_kde 1 data ws d M refl K -> finite d = true ->
  lo < hi -> sqrt (M O O) <= hi - lo -> (forall p, In p data -> lo <= p O <= hi) ->
  exists f, kde_density K prob 1 (Some [Some (Some lo, Some hi)]) PNone = Ok f /\ is_tintN 1 f base (mass prob ws).
Proof.
  intros HB Hf Hlt Hw Hd. destruct (built_inv _ _ _ _ _ _ _ HB) as (En & Ed & Hne & Er & Ew & Hl & Hnn & Hp & Et & Ek & Hs & Hpd).
  pose proof (posdef_diag_pos 1 M O Hpd ltac:(lia)) as HM.
  destruct (reflect_conserves_two d M data ws lo hi base HM Hl Hf Hlt Hw Hd) as [f [Hf' Hi]].
  exists (scaled prob ws f). split.
  - rewrite (density_as_kernel _ _ _ _ _ _ _ prob _ HB). cbn [length Nat.eqb negb]. rewrite Hf'. reflexivity.
  - rewrite <- (Rmult_1_r (mass prob ws)). apply scaled_tint; [exact Hp|]. rewrite Rmult_1_r. exact Hi.
Qed.
Lemma lsum_pos_ex ws : (forall v, In v ws -> 0 <= v) -> 0 < lsum ws -> exists v, In v ws /\ 0 < v.
Proof.
  intros Hnn Hp. destruct (Classical_Prop.classic (exists v, In v ws /\ 0 < v)) as [|Hn]; [assumption|exfalso].
  rewrite lsum_zero_list in Hp; [lra|]. intros v Hv. destruct (Hnn v Hv) as [H|]; [|auto]. exfalso. apply Hn. eauto.
Qed.
Lemma top_reflect_two_gaussian data ws M refl K (prob : bool) lo hi base : built_kde 1 data ws Gaussian M refl K -> lo < hi ->
  exists f y, kde_density K prob 1 (Some [Some (Some lo, Some hi)]) PNone = Ok f /\ is_tintN 1 f base y /\ y < mass prob ws.
Proof.
  intros HB Hlt. destruct (built_inv _ _ _ _ _ _ _ HB) as (En & Ed & Hne & Er & Ew & Hl & Hnn & Hp & Et & Ek & Hs & Hpd).
  pose proof (posdef_diag_pos 1 M O Hpd ltac:(lia)) as HM.
  destruct (reflect_two_gaussian_loses M data ws lo hi base HM Hl Hlt Hnn (lsum_pos_ex ws Hnn Hp)) as [f [y [Hf [Hi Hy]]]].
  exists (scaled prob ws f), (mass prob ws * (y / lsum ws)). split; [|split].
  - rewrite (density_as_kernel _ _ _ _ _ _ _ prob _ HB). cbn [length Nat.eqb negb]. rewrite Hf. reflexivity.
  - apply scaled_tint; [exact Hp|]. replace (lsum ws * (y / lsum ws)) with y by (field; lra). exact Hi.
  - assert (0 < mass prob ws) by (unfold mass; destruct prob; lra).
    assert (y / lsum ws < 1). { apply Rmult_lt_reg_r with (lsum ws); [exact Hp|]. unfold Rdiv. rewrite Rmult_assoc, Rinv_l by lra. lra. }
    nra.
Qed.

(* C12 *)
Lemma top_reflect_outside n data ws d M refl K (prob : bool) (r : reflspec) (b : bnd) m f x : built_kde n data ws d M refl K ->
  (length r + 1 + m)%nat = n ->
  kde_density K prob n (Some (r ++ Some b :: repeat None m)) PNone = Ok f ->
  outside b (x (length r)) = true -> f x = 0.
Proof.
  intros HB Hn HD Hx. destruct (built_inv _ _ _ _ _ _ _ HB) as (En & Ed & Hne & Er & Ew & Hl & Hnn & Hp & Et & Ek & Hs & Hpd).
  assert (HL : List.length (r ++ Some b :: repeat None m) = n).
  { rewrite app_length. cbn [List.length]. rewrite repeat_length. lia. }
  destruct (density_refl_as _ _ _ _ _ _ _ prob _ _ HB HL HD) as [g [Hg ->]].
  rewrite scaled_val by exact Hp. rewrite (reflect_outside_last _ _ _ _ _ r b m None g x Hg Hx). ring.
Qed.

Lemma kernel_matrix_1 C : kernel_matrix C (fun _ _ => 1) = C.
Proof. apply functional_extensionality; intros i; apply functional_extensionality; intros j. unfold kernel_matrix. ring. Qed.

Definition k12 (d : dist) (n : nat) (refl : option reflspec) : kde := mkKDE n [origin] None 1 (Some (mkKernel d n ident)) refl.
Lemma k12_ok d n refl : kde_init n [origin] WNone (BwAtom (BNum 1)) false None d (Some ident) None refl = Ok (k12 d n refl).
Proof.
  unfold kde_init. cbn [length Nat.eqb check_weights bind set_bandwidth compute_bandwidth]. unfold kernel_init.
  rewrite kernel_matrix_1. unfold k12, neff_of. cbn [INR]. reflexivity.
Qed.
Lemma k12_built d n refl : built_kde n [origin] [1] d ident refl (k12 d n refl).
Proof.
  split.
  - exists WNone, (BwAtom (BNum 1)), false, None, (Some ident), None. split; [left; split; reflexivity|apply k12_ok].
  - split; [reflexivity|split; [apply ident_sym|apply ident_posdef]].
Qed.

Lemma top_reflect_refuted :
  exists n data ws d M refl K f x, built_kde n data ws d M (Some refl) K
    /\ kde_pdf K n None PNone = Ok f
    /\ (exists i b, nth i refl None = Some b /\ outside b (x i) = true) /\ 0 < f x.
Proof.
  destruct reflect_outside_witness as [f [Hf Hx]].
  set (r := [Some (Some 0, None); Some (Some 0, None)] : reflspec) in *.
  exists 2%nat, [origin], [1], Box, ident, r, (k12 Box 2 (Some r)), (scaled true [1] f).
  eexists. split; [apply k12_built|]. split.
  - unfold kde_pdf. rewrite (density_as_kernel _ _ _ _ _ _ _ true None (k12_built Box 2 (Some r))). cbn [length Nat.eqb negb].
    assert (E : forall X, X = Ok f -> (do f0 <- X ;; Ok (scaled true [1] f0)) = Ok (scaled true [1] f)) by (intros X ->; reflexivity).
    exact (E _ Hf).
  - split; [|rewrite scaled_val; [|cbn [lsum]; lra]; unfold mass; cbn [lsum]; apply Rmult_lt_0_compat; [lra|exact Hx]].
    exists O, (Some 0, None). split; [reflexivity|]. unfold outside. cbn [fst snd].
    apply Bool.orb_true_iff. left. apply Rltb_true. lra.
Qed.

(* C13 *)
Lemma top_reflect_far data ws d M K (prob : bool) b f g t : built_kde 1 data ws d M None K -> finite d = true ->
  kde_density K prob 1 (Some [Some b]) PNone = Ok f -> kde_density K prob 1 None PNone = Ok g ->
  (forall p, In p data -> outside b (p O) = false) ->
  (forall lo, fst b = Some lo -> lo + sqrt (M O O) < t) ->
  (forall hi, snd b = Some hi -> t < hi - sqrt (M O O)) -> f (pt1 t) = g (pt1 t).
Proof.
  intros HB Hfin Hf Hg Hd Hlo Hhi. destruct (built_inv _ _ _ _ _ _ _ HB) as (En & Ed & Hne & Er & Ew & Hl & Hnn & Hp & Et & Ek & Hs & Hpd).
  pose proof (posdef_diag_pos 1 M O Hpd ltac:(lia)) as HM.
  destruct (density_refl_as _ _ _ _ _ _ _ prob [_] _ HB eq_refl Hf) as [f1 [Hf1 ->]].
  destruct (density_plain_ex _ _ _ _ _ _ prob HB) as [g1 [Hg1 HD]]. rewrite Hg in HD. injection HD as ->.
  rewrite !scaled_val by exact Hp. f_equal. eapply reflect_far_unchanged; eauto.
Qed.
Lemma top_reflect_boundary data ws d M K (prob low : bool) f g t : built_kde 1 data ws d M None K ->
  kde_density K prob 1 (Some [Some (if low then (Some t, None) else (None, Some t))]) PNone = Ok f ->
  kde_density K prob 1 None PNone = Ok g -> f (pt1 t) = 2 * g (pt1 t).
Proof.
  intros HB Hf Hg. destruct (built_inv _ _ _ _ _ _ _ HB) as (En & Ed & Hne & Er & Ew & Hl & Hnn & Hp & Et & Ek & Hs & Hpd).
  destruct (density_refl_as _ _ _ _ _ _ _ prob [_] _ HB eq_refl Hf) as [f1 [Hf1 ->]].
  destruct (density_plain_ex _ _ _ _ _ _ prob HB) as [g1 [Hg1 HD]]. rewrite Hg in HD. injection HD as ->.
  rewrite !scaled_val by exact Hp. rewrite (reflect_boundary_doubles d M data ws f1 g1 t low Hf1 Hg1). ring.
Qed.

(* C27, C28 *)
Lemma tintL_scal qs c f : forall base l, is_tintL qs f base l -> is_tintL qs (fun x => c * f x) base (c * l).
Proof.
  induction qs as [|q qs IH]; cbn [is_tintL]; intros base l H; [rewrite H; reflexivity|].
  destruct H as [h [H1 H2]]. exists (fun t => c * h t). split; [intros t; apply IH, H1|apply tint_scal, H2].
Qed.

Lemma top_marginal n data ws M K (prob : bool) rest ps f g base : built_kde n data ws Gaussian M None K ->
  Permutation (rest ++ ps) (seq 0 n) -> ps <> [] -> n <> 1%nat ->
  kde_density K prob n None PNone = Ok f -> kde_density K prob (length ps) None (PList ps) = Ok g ->
  is_tintL rest f base (g (select ps base)).
Proof.
  intros HB HP Hne' Hn1 Hf Hg. destruct (built_inv _ _ _ _ _ _ _ HB) as (En & Ed & Hne & Er & Ew & Hl & Hnn & Hp & Et & Ek & Hs & Hpd).
  destruct (density_plain_ex _ _ _ _ _ _ prob HB) as [f1 [Hf1 HD]]. rewrite Hf in HD. injection HD as ->.
  assert (Hq : forall q, In q ps -> (q < n)%nat).
  { intros q Hq. apply (perm_bound n _ HP). apply in_or_app. right. exact Hq. }
  rewrite (density_as_kernel_params _ _ _ _ _ _ prob ps HB Hn1 Hq) in Hg.
  destruct (kernel_density _ _ _ _ _ _ _) as [g1|] eqn:Eg; [|discriminate]. cbn [bind] in Hg. injection Hg as <-.
  rewrite scaled_val by exact Hp.
  pose proof (gauss_marginal_any n M data ws f1 g1 rest ps base Hs Hpd Hl HP Hne' Hf1 Eg) as H.
  apply (tintL_scal _ (mass prob ws / lsum ws)) in H. apply tintL_ext with (2 := H). intros x. symmetry. apply scaled_val, Hp.
Qed.
Lemma top_params_ok n data ws d M K (prob : bool) ps : built_kde n data ws d M None K -> n <> 1%nat -> NoDup ps ->
  (forall q, In q ps -> (q < n)%nat) -> exists g, kde_density K prob (length ps) None (PList ps) = Ok g.
Proof.
  intros HB Hn1 Hnd Hq. destruct (built_inv _ _ _ _ _ _ _ HB) as (En & Ed & Hne & Er & Ew & Hl & Hnn & Hp & Et & Ek & Hs & Hpd).
  rewrite (density_as_kernel_params _ _ _ _ _ _ prob ps HB Hn1 Hq).
  destruct (kernel_density_params d n M ps (map (select ps) data) ws Hs Hpd Hnd Hq) as [N [W [_ [_ [_ [_ [_ Hf]]]]]]].
  { rewrite map_length; exact Hl. }
  rewrite Hf. cbn [bind]. eauto.
Qed.
Lemma top_marginal_refuted :
  exists n data ws d M K f g rest ps base l, built_kde n data ws d M None K
    /\ Permutation (rest ++ ps) (seq 0 n)
    /\ kde_pdf K n None PNone = Ok f /\ kde_pdf K (length ps) None (PList ps) = Ok g
    /\ is_tintL rest f base l /\ l <> g (select ps base).
Proof.
  destruct box_marginal_witness as [f [g [l [Hf [Hg [Hi Hne]]]]]].
  exists 2%nat, [origin], [1], Box, ident, (k12 Box 2 None), (scaled true [1] f), (scaled true [1] g).
  exists [0%nat], [1%nat], origin, l. pose proof (k12_built Box 2 None) as HB.
  assert (E1 : forall h x, scaled true [1] h x = h x) by (intros h x; unfold scaled; cbn [lsum]; field).
  split; [exact HB|]. split; [apply Permutation_refl|]. split; [|split; [|split]].
  - unfold kde_pdf. rewrite (density_as_kernel _ _ _ _ _ _ _ true None HB). cbv zeta. rewrite Hf. reflexivity.
  - unfold kde_pdf. rewrite (density_as_kernel_params _ _ _ _ _ _ true [1%nat] HB); [|lia|intros q [<-|[]]; lia].
    cbn [length]. rewrite Hg. reflexivity.
  - cbn [is_tintL]. apply tintN_1 in Hi. exists (fun t => f (upd origin 0 t)). split; [intros t; apply E1|exact Hi].
  - rewrite E1. exact Hne.
Qed.
Lemma top_params_perm n data ws d M K (prob : bool) ps f g x : built_kde n data ws d M None K -> (1 < n)%nat ->
  Permutation ps (seq 0 n) -> kde_density K prob n None PNone = Ok f -> kde_density K prob n None (PList ps) = Ok g ->
  g (select ps x) = f x.
Proof.
  intros HB Hn HP Hf Hg. destruct (built_inv _ _ _ _ _ _ _ HB) as (En & Ed & Hne & Er & Ew & Hl & Hnn & Hp & Et & Ek & Hs & Hpd).
  destruct (density_plain_ex _ _ _ _ _ _ prob HB) as [f1 [Hf1 HD]]. rewrite Hf in HD. injection HD as ->.
  pose proof (Permutation_length HP) as Hlen. rewrite seq_length in Hlen.
  pose proof (density_as_kernel_params _ _ _ _ _ _ prob ps HB ltac:(lia) (perm_bound n ps HP)) as E. rewrite Hlen in E. rewrite E in Hg.
  destruct (kernel_density _ _ _ _ _ _ _) as [g1|] eqn:Eg; [|discriminate]. cbn [bind] in Hg. injection Hg as <-.
  rewrite !scaled_val by exact Hp. f_equal.
  exact (density_params_perm d n M ps data ws f1 g1 x ltac:(lia) Hs Hpd HP Hl Hf1 Eg).
Qed.
Lemma params_1d K (prob : bool) pdim refl q : kd_ndim K = 1%nat ->
  kde_density K prob pdim refl (PInt q) = if Nat.eqb q 0 then kde_density K prob pdim refl PNone else Err ValueError.
Proof.
  intros E. unfold kde_density, resolve_params. rewrite E. cbn [Nat.eqb]. destruct (Nat.eqb q 0); reflexivity.
Qed.
Lemma params_int_list K (prob : bool) pdim refl q : kd_ndim K <> 1%nat ->
  kde_density K prob pdim refl (PInt q) = kde_density K prob pdim refl (PList [q]).
Proof.
  intros E. unfold kde_density, resolve_params. destruct (Nat.eqb_spec (kd_ndim K) 1); [contradiction|].
  cbn [forallb]. rewrite Bool.andb_true_r. reflexivity.
Qed.

(* C05 *)
Lemma top_repeats n data ks d C b diag resc neffa (prob : bool) pdim refl0 refl p :
  length ks = length data -> ((exists e, neffa = Some e) \/ (exists h, b = BwAtom (BNum h))) -> 
  res_rel (fun f g => forall x, f x = g x)
    (do K <- kde_init n data (WArr (map (fun k => Fin (INR k)) ks)) b diag resc d (Some C) neffa refl0 ;;
     kde_density K prob pdim refl p)
    (do K <- kde_init n (flat_map (fun dk => repeat (fst dk) (snd dk)) (combine data ks)) WNone b diag resc d (Some C) neffa refl0 ;;
     kde_density K prob pdim refl p).
Proof.
  intros Hl Hfix. set (rep := flat_map _ _).
  assert (Hcases : (exists ow, check_weights (length data) (WArr (map (fun k => Fin (INR k)) ks)) = Ok ow /\ rep <> [] /\ data <> [])
     \/ ((data = [] \/ check_weights (length data) (WArr (map (fun k => Fin (INR k)) ks)) = Err ValueError) /\ rep = [])).
  { destruct (check_weights_iff (length data) (map (fun k => Fin (INR k)) ks)) as [H1 H2].
    destruct (Classical_Prop.classic (exists k, In k ks /\ k <> O)) as [[k [Hk Hk0]]|Hn].
    - left. destruct H1 as [w [E _]].
      + split; [rewrite map_length; exact Hl|split].
        * intros x Hx. apply in_map_iff in Hx. destruct Hx as [j [<- _]]. exists (INR j). split; [reflexivity|apply pos_INR].
        * exists (Fin (INR k)). split; [apply (in_map (fun k => Fin (INR k))), Hk|]. intros E. injection E as E.
          apply INR_eq with (m := O) in E. contradiction.
      + exists (Some w). split; [exact E|]. split.
        * intros Er. destruct (In_nth ks k O Hk) as [i [Hi Ei]].
          assert (Hin : In (nth i data (fun _ => 0), k) (combine data ks)).
          { rewrite <- Ei. rewrite <- combine_nth by (symmetry; exact Hl). apply nth_In. rewrite combine_length, Hl, Nat.min_id, <- Hl. exact Hi. }
          assert (Hr : In (nth i data (fun _ => 0)) rep).
          { apply in_flat_map. eexists. split; [exact Hin|]. cbn [fst snd]. destruct k; [contradiction Hk0; reflexivity|left; reflexivity]. }
          rewrite Er in Hr. exact Hr.
        * intros ->. destruct ks; [destruct Hk|discriminate].
    - right. split.
      + destruct data as [|a data']; [left; reflexivity|right]. apply H2. intros [_ [_ [x [Hx Hne]]]].
        apply in_map_iff in Hx. destruct Hx as [k [<- Hk]]. destruct k; [apply Hne; reflexivity|]. apply Hn. exists (S k). split; [exact Hk|lia].
      + unfold rep. assert (Hz : forall dk, In dk (combine data ks) -> snd dk = O).
        { intros [a k] Hin. cbn [snd]. apply in_combine_r in Hin. destruct k; [reflexivity|]. exfalso. apply Hn. exists (S k). split; [exact Hin|lia]. }
        revert Hz. clear. induction (combine data ks) as [|[a k] l IH]; intros Hz; [reflexivity|]. cbn [flat_map fst snd].
        rewrite (Hz (a, k) (or_introl eq_refl) : k = O). cbn [repeat app]. apply IH. intros; apply Hz; right; assumption. }
  unfold kde_init.
  destruct Hcases as [[ow [Hcw [Hrep Hdata]]]|[Hbad Hrep]].
  - destruct (Nat.eqb_spec (length data) 0) as [E|_]; [destruct data; [contradiction Hdata; reflexivity|discriminate]|].
    destruct (Nat.eqb_spec (length rep) 0) as [E|_]; [destruct rep; [contradiction Hrep; reflexivity|discriminate]|].
    rewrite Hcw. cbn [bind check_weights].
    assert (Eow : ow = Some (map INR ks)).
    { destruct (check_weights_iff (length data) (map (fun k => Fin (INR k)) ks)) as [H1 H2].
      destruct (Classical_Prop.classic (valid_weights (length data) (map (fun k => Fin (INR k)) ks))) as [Hv|Hv];
        [|rewrite (H2 Hv) in Hcw; discriminate]. destruct (H1 Hv) as [w [E1 E2]]. rewrite E1 in Hcw. injection Hcw as <-. f_equal.
      apply map_Fin_inj. rewrite E2, map_map. reflexivity. }
    subst ow.
    assert (Eb : exists r, (forall m ow, set_bandwidth (match neffa with Some x => x | None => neff_of m ow end) n diag b resc = r)).
    { destruct Hfix as [[e ->]|[h ->]]; [eexists; intros; reflexivity|]. exists (set_bandwidth 0 n diag (BwAtom (BNum h)) resc). intros; reflexivity. }
    destruct Eb as [rb Eb]. rewrite !Eb. destruct rb as [bw|]; [|reflexivity]. cbn [bind]. apply (kde_repeats _ _ prob pdim refl p ks); cbn [kd_ndim kd_kernel kd_reflect kd_data kd_weights]; auto.
  - rewrite Hrep. cbn [length Nat.eqb bind]. destruct Hbad as [->|Hbad].
    + cbn [length Nat.eqb bind res_rel]. reflexivity.
    + destruct (Nat.eqb (length data) 0); [reflexivity|]. rewrite Hbad. reflexivity.
Qed.

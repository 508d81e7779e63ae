(** Extrema of a KDE: support (C09), data containment (C10), _parse_extrema (C48). *)
From Coquelicot Require Import Coquelicot.
From Verif Require Import Base ModelLinAlg SpecLinAlg ProofLinAlg SpecIntegral ProofIntegral
  ModelKernels SpecKernels ProofKernels ModelKDE SpecKDE ProofDensity ProofAffine ProofReflect1
  ModelExtrema SpecNormal ProofNormal ProofKDE.
Open Scope R_scope.

Lemma fold_min_le t : forall a, fold_left Rmin t a <= a /\ (forall x, In x t -> fold_left Rmin t a <= x)
  /\ (fold_left Rmin t a = a \/ In (fold_left Rmin t a) t).
Proof.
  induction t as [|b t IH]; intros a; cbn [fold_left].
  - split; [lra|split; [intros x []|left; reflexivity]].
  - destruct (IH (Rmin a b)) as [H1 [H2 H3]]. pose proof (Rmin_l a b). pose proof (Rmin_r a b).
    split; [lra|split].
    + intros x [<-|Hx]; [lra|auto].
    + destruct H3 as [E|Hin]; [|right; right; exact Hin].
      rewrite E. unfold Rmin. destruct (Rle_dec a b); [left|right; left]; reflexivity.
Qed.
Lemma fold_max_ge t : forall a, a <= fold_left Rmax t a /\ (forall x, In x t -> x <= fold_left Rmax t a)
  /\ (fold_left Rmax t a = a \/ In (fold_left Rmax t a) t).
Proof.
  induction t as [|b t IH]; intros a; cbn [fold_left].
  - split; [lra|split; [intros x []|left; reflexivity]].
  - destruct (IH (Rmax a b)) as [H1 [H2 H3]]. pose proof (Rmax_l a b). pose proof (Rmax_r a b).
    split; [lra|split].
    + intros x [<-|Hx]; [lra|auto].
    + destruct H3 as [E|Hin]; [|right; right; exact Hin].
      rewrite E. unfold Rmax. destruct (Rle_dec a b); [right; left|left]; reflexivity.
Qed.
Lemma lmin_le l x : In x l -> lmin l <= x.
Proof. destruct l as [|a t]; [intros []|]. destruct (fold_min_le t a) as [H1 [H2 _]]. intros [<-|H]; [exact H1|exact (H2 x H)]. Qed.
Lemma lmin_in l : l <> [] -> In (lmin l) l.
Proof.
  destruct l as [|a t]; [contradiction|]. intros _. cbn [lmin]. destruct (fold_min_le t a) as [_ [_ [E|H]]].
  - left. symmetry. exact E.
  - right. exact H.
Qed.
Lemma lmax_ge l x : In x l -> x <= lmax l.
Proof. destruct l as [|a t]; [intros []|]. destruct (fold_max_ge t a) as [H1 [H2 _]]. intros [<-|H]; [exact H1|exact (H2 x H)]. Qed.
Lemma lmax_in l : l <> [] -> In (lmax l) l.
Proof.
  destruct l as [|a t]; [contradiction|]. intros _. cbn [lmax]. destruct (fold_max_ge t a) as [_ [_ [E|H]]].
  - left. symmetry. exact E.
  - right. exact H.
Qed.
Lemma lmin_lmax l : l <> [] -> lmin l <= lmax l.
Proof. intros H. apply lmin_le, lmax_in, H. Qed.
Lemma coords_in i data p : In p data -> In (p i) (coords i data).
Proof. intros H. apply (in_map (fun p => p i)). exact H. Qed.
Lemma coords_nonempty i data : data <> [] -> coords i data <> [].
Proof. destruct data; [contradiction|discriminate]. Qed.

Lemma eff_nth n M data out i : (i < n)%nat ->
  nth i (map sort_pair (eff_extrema n M data out)) (0, 0)
  = sort_pair (lmin (coords i data) - sqrt (M i i) * out, lmax (coords i data) + sqrt (M i i) * out).
Proof.
  intros Hi. unfold eff_extrema. rewrite map_map.
  rewrite nth_indep with (d' := (fun x => sort_pair (lmin (coords x data) - sqrt (M x x) * out,
     lmax (coords x data) + sqrt (M x x) * out)) O) by (rewrite map_length, seq_length; exact Hi).
  rewrite (map_nth (fun x => sort_pair (lmin (coords x data) - sqrt (M x x) * out,
     lmax (coords x data) + sqrt (M x x) * out)) (seq 0 n) O i).
  rewrite seq_nth by exact Hi. reflexivity.
Qed.

Lemma kde_extrema_default K d M ppf out : kd_kernel K = Some (mkKernel d (kd_ndim K) M) ->
  kd_reflect K = None -> ext_out d (kd_neff K) ppf = Some out ->
  kde_extrema K ppf None = Some (Ok (map sort_pair (eff_extrema (kd_ndim K) M (kd_data K) out))).
Proof. intros Hk Hr Ho. unfold kde_extrema. rewrite Hk. cbn [k_dist k_matrix]. rewrite Ho, Hr. reflexivity. Qed.

Lemma num_pad_pos : 0 < num_pad. Proof. unfold num_pad. lra. Qed.

Lemma finite_zero_outside_extrema K d M ppf ext (prob : bool) f x i :
  kd_kernel K = Some (mkKernel d (kd_ndim K) M) -> kd_reflect K = None -> kd_data K <> [] ->
  symmetric (kd_ndim K) M -> finite d = true ->
  kde_extrema K ppf None = Some (Ok ext) ->
  kde_density K prob (kd_ndim K) None PNone = Ok f ->
  (i < kd_ndim K)%nat -> (x i < fst (nth i ext (0, 0)) \/ snd (nth i ext (0, 0)) < x i) -> f x = 0.
Proof.
  intros Hk Hr Hd Hs Hf He HD Hi Hx.
  assert (Ho : ext_out d (kd_neff K) ppf = Some (1 + num_pad)) by (unfold ext_out; rewrite Hf; reflexivity).
  rewrite (kde_extrema_default K d M ppf _ Hk Hr Ho) in He. injection He as <-.
  rewrite eff_nth in Hx by exact Hi. unfold sort_pair in Hx. cbn [fst snd] in Hx.
  pose proof (sqrt_pos (M i i)) as Hsq. pose proof num_pad_pos as Hpad.
  pose proof (lmin_lmax (coords i (kd_data K)) (coords_nonempty i _ Hd)) as Hmm.
  assert (Hprod : sqrt (M i i) <= sqrt (M i i) * (1 + num_pad)) by nra.
  rewrite Rmin_left, Rmax_right in Hx by lra.
  rewrite (kde_density_plain K d M prob Hk Hr) in HD.
  destruct (kernel_density _ _ _ _ _ _ _) as [g|] eqn:Eg; [|discriminate]. cbn [bind] in HD.
  assert (Hg : g x = 0).
  { set (w := match kd_weights K with Some w => w | None => ones (kd_data K) end).
    apply (kernel_density_support d (kd_ndim K) M (kd_data K) w g x i Hs Hf Hi).
    - unfold w. destruct (kd_weights K); [exact Eg|]. rewrite <- kernel_density_ones. exact Eg.
    - intros p Hp. pose proof (lmin_le _ _ (coords_in i _ _ Hp)). pose proof (lmax_ge _ _ (coords_in i _ _ Hp)).
      destruct Hx as [Hx|Hx]; unfold Rabs; destruct (Rcase_abs _); lra. }
  destruct prob; injection HD as <-; [rewrite Hg; unfold Rdiv; ring|exact Hg].
Qed.

(** Containment of the data in a list of intervals. *)
Lemma contain_iff lo hi lo' hi' (data : list pt) i : data <> [] ->
  lo = lmin (coords i data) -> hi = lmax (coords i data) ->
  ((forall p, In p data -> lo' <= p i <= hi') <-> lo' <= lo /\ hi <= hi').
Proof.
  intros Hd -> ->. split.
  - intros H. pose proof (lmin_in _ (coords_nonempty i _ Hd)) as H1. pose proof (lmax_in _ (coords_nonempty i _ Hd)) as H2.
    unfold coords in H1, H2. apply in_map_iff in H1. apply in_map_iff in H2.
    destruct H1 as [p [E1 Hp]]. destruct H2 as [q [E2 Hq]].
    fold (coords i data) in E1, E2. rewrite <- E1, <- E2. split; [apply H, Hp|apply H, Hq].
  - intros [H1 H2] p Hp. pose proof (lmin_le _ _ (coords_in i _ _ Hp)). pose proof (lmax_ge _ _ (coords_in i _ _ Hp)). lra.
Qed.

(** Exact condition under which the automatic extrema contain the data in dimension i. *)
Lemma extrema_contain_iff K d M ppf out ext i :
  kd_kernel K = Some (mkKernel d (kd_ndim K) M) -> kd_reflect K = None -> kd_data K <> [] ->
  (i < kd_ndim K)%nat -> 0 < M i i -> ext_out d (kd_neff K) ppf = Some out ->
  kde_extrema K ppf None = Some (Ok ext) ->
  ((forall p, In p (kd_data K) -> fst (nth i ext (0, 0)) <= p i <= snd (nth i ext (0, 0)))
   <-> (0 <= out \/ lmax (coords i (kd_data K)) - lmin (coords i (kd_data K)) <= sqrt (M i i) * - out)).
Proof.
  intros Hk Hr Hd Hi HM Ho He. rewrite (kde_extrema_default K d M ppf _ Hk Hr Ho) in He. injection He as <-.
  rewrite eff_nth by exact Hi. rewrite (contain_iff _ _ _ _ _ i Hd eq_refl eq_refl).
  unfold sort_pair. cbn [fst snd].
  pose proof (sqrt_lt_R0 _ HM) as Hs. pose proof (lmin_lmax (coords i (kd_data K)) (coords_nonempty i _ Hd)) as Hmm.
  set (lo := lmin _) in *. set (hi := lmax _) in *. set (s := sqrt _) in *.
  split.
  - intros [H1 H2]. destruct (Rle_lt_dec 0 out) as [|Hn]; [left; assumption|right].
    assert (s * out < 0) by nra. unfold Rmin in H1. unfold Rmax in H2.
    destruct (Rle_dec (lo - s * out) (hi + s * out)); lra.
  - intros [H|H].
    + assert (0 <= s * out) by nra. rewrite Rmin_left, Rmax_right by lra. lra.
    + destruct (Rle_lt_dec (lo - s * out) (hi + s * out)) as [H1|H1].
      * rewrite Rmin_left, Rmax_right by lra. lra.
      * rewrite Rmin_right, Rmax_left by lra. lra.
Qed.

Lemma out_sign_gaussian neff ppf out : is_ppf ppf -> ext_out Gaussian neff ppf = Some out ->
  1 < neff /\ (0 <= out <-> 2 <= neff).
Proof.
  intros Hppf. unfold ext_out. cbn [finite]. destruct (Rleb_spec neff 1) as [|Hn]; [discriminate|].
  intros E. injection E as <-. assert (H1 : 1 < neff) by lra. split; [exact H1|].
  assert (Hp : 0 < 1 - 1 / neff < 1).
  { assert (0 < / neff) by (apply Rinv_0_lt_compat; lra).
    assert (/ neff < 1) by (rewrite <- Rinv_1; apply Rinv_lt_contravar; lra). unfold Rdiv. lra. }
  destruct (ppf_sign ppf _ Hppf Hp) as [Hs _].
  assert (E : 1 / 2 <= 1 - 1 / neff <-> 2 <= neff).
  { assert (Hr : neff * / neff = 1) by (apply Rinv_r; lra). assert (0 < / neff) by (apply Rinv_0_lt_compat; lra).
    unfold Rdiv. split; intros; nra. }
  rewrite <- E, <- Hs. split; intros; lra.
Qed.

Lemma extrema_contain_data K d M ppf i :
  kd_kernel K = Some (mkKernel d (kd_ndim K) M) -> kd_reflect K = None -> kd_data K <> [] ->
  (i < kd_ndim K)%nat -> 0 < M i i -> is_ppf ppf -> finite d = true \/ 2 <= kd_neff K ->
  exists ext, kde_extrema K ppf None = Some (Ok ext)
   /\ forall p, In p (kd_data K) -> fst (nth i ext (0, 0)) <= p i <= snd (nth i ext (0, 0)).
Proof.
  intros Hk Hr Hd Hi HM Hppf Hc.
  assert (Ho : exists out, ext_out d (kd_neff K) ppf = Some out /\ 0 <= out).
  { destruct (finite d) eqn:Ef.
    - exists (1 + num_pad). split; [unfold ext_out; rewrite Ef; reflexivity|]. pose proof num_pad_pos. lra.
    - destruct Hc as [Hc|Hc]; [discriminate|]. destruct d; try discriminate Ef.
      assert (E : exists out, ext_out Gaussian (kd_neff K) ppf = Some out).
      { unfold ext_out. cbn [finite]. destruct (Rleb_spec (kd_neff K) 1); [lra|]. eexists; reflexivity. }
      destruct E as [out E]. exists out. split; [exact E|]. apply (out_sign_gaussian _ _ _ Hppf E). exact Hc. }
  destruct Ho as [out [Ho H0]]. eexists. 
  pose proof (kde_extrema_default K d M ppf out Hk Hr Ho) as He. split; [exact He|].
  apply (extrema_contain_iff K d M ppf out _ i Hk Hr Hd Hi HM Ho He). left. exact H0.
Qed.

(** Witness: default construction, two points with weights 3 and 1. *)
Lemma extrema_exclude_witness ppf : is_ppf ppf ->
  exists K ext, kde_init 1 [p0; p1] (WArr [Fin 3; Fin 1]) BwNone false None Gaussian None None None = Ok K
    /\ kde_extrema K ppf None = Some (Ok ext)
    /\ 0 < fst (nth 0 ext (0, 0)) /\ snd (nth 0 ext (0, 0)) < 1.
Proof.
  intros Hppf.
  assert (Hcw : check_weights 2 (WArr [Fin 3; Fin 1]) = Ok (Some [3; 1])).
  { destruct (check_weights_iff 2 [Fin 3; Fin 1]) as [H _]. destruct H as [w [Hw E]].
    - split; [reflexivity|split].
      + intros x [<-|[<-|[]]]; eexists; split; try reflexivity; lra.
      + exists (Fin 3). split; [left; reflexivity|]. intros E. injection E as E. lra.
    - rewrite Hw. do 2 f_equal. destruct w as [|a [|c [|e w]]]; try discriminate E. injection E as -> ->. reflexivity. }
  assert (Hc1 : np_cov (wdata_of [p0; p1] (Some [3; 1])) = Some (fun _ _ => 1 / 2)).
  { unfold np_cov, wdata_of, wlist, cov_fact, wmean, sumf. cbn [combine map fst snd lsum].
    destruct (Rleb_spec (3 + (1 + 0) - (3 * 3 + (1 * 1 + 0)) / (3 + (1 + 0))) 0) as [Hn|_]; [exfalso; lra|].
    f_equal. apply FunctionalExtensionality.functional_extensionality. intros i.
    apply FunctionalExtensionality.functional_extensionality. intros j. unfold p0, p1. field. }
  set (s1 := scott (neff_of 2 (Some [3; 1])) 1).
  assert (En : neff_of 2 (Some [3; 1]) = 8 / 5).
  { unfold neff_of, sumsq, sumf. cbn [map lsum]. field. }
  destruct (scott_facts 1) as [P1 [_ [_ P2]]].
  assert (Hs1 : 0 < s1 <= 1) by (unfold s1; split; [apply P1|apply P2; rewrite En; lra]).
  set (M1 := kernel_matrix (fun _ _ => 1 / 2) (fun _ _ => s1)).
  assert (HI1 : kde_init 1 [p0; p1] (WArr [Fin 3; Fin 1]) BwNone false None Gaussian None None None
            = Ok (mkKDE 1 [p0; p1] (Some [3; 1]) (neff_of 2 (Some [3; 1])) (Some (mkKernel Gaussian 1 M1)) None)).
  { unfold kde_init. cbn [Nat.eqb List.length]. rewrite Hcw. cbn [bind]. rewrite Hc1. reflexivity. }
  rewrite En in HI1.
  set (K := mkKDE 1 [p0; p1] (Some [3; 1]) (8 / 5) (Some (mkKernel Gaussian 1 M1)) None) in *.
  assert (Ho : ext_out Gaussian (kd_neff K) ppf = Some (ppf (1 - 1 / (8 / 5)) * (12 / 10))).
  { unfold ext_out. cbn [finite kd_neff K]. destruct (Rleb_spec (8 / 5) 1); [lra|reflexivity]. }
  replace (1 - 1 / (8 / 5)) with (3 / 8) in Ho by field.
  pose proof (kde_extrema_default K Gaussian M1 ppf _ eq_refl eq_refl Ho) as He.
  exists K. eexists. split; [exact HI1|]. split; [exact He|].
  rewrite eff_nth by (cbn; lia). unfold sort_pair. cbn [kd_data K coords map lmin lmax fold_left fst snd].
  unfold p0, p1. rewrite (Rmin_left 0 1), (Rmax_right 0 1) by lra.
  assert (Hq : -1 < ppf (3 / 8) < 0).
  { assert (Hp : 0 < 3 / 8 < 1) by lra. split.
    - apply Phi_lt_inv. rewrite <- (Phi_unique _ _ (Hppf _ Hp)). apply Phi_m1.
    - apply (ppf_sign ppf _ Hppf Hp). lra. }
  assert (HM : 0 < M1 O O <= 1 / 2) by (unfold M1, kernel_matrix; nra).
  assert (Hsq : 0 < sqrt (M1 O O)) by (apply sqrt_lt_R0; lra).
  assert (Hsq2 : sqrt (M1 O O) < 8 / 10).
  { rewrite <- (sqrt_square (8 / 10)) by lra. apply sqrt_lt_1; lra. }
  set (o := ppf (3 / 8)) in *. set (s := sqrt (M1 O O)) in *.
  assert (- (96 / 100) < s * (o * (12 / 10)) < 0) by nra.
  unfold Rmin, Rmax. destruct (Rle_dec _ _); lra.
Qed.

(* ---------------------------------------------------------------- C48 *)
Lemma parse_none dext : parse_extrema dext None = Ok dext. Proof. reflexivity. Qed.

Lemma parse_per_dim dext l : length l = length dext ->
  (forall e, In e l -> e = XNone \/ exists lo hi, e = XPair lo hi) -> (exists lo hi, In (XPair lo hi) l) ->
  exists r, parse_extrema dext (Some l) = Ok r /\ length r = length dext
    /\ forall i, (i < length dext)%nat -> nth i r (0, 0) =
       match nth i l XNone with
       | XPair lo hi => (match lo with Some v => v | None => fst (nth i dext (0, 0)) end,
                         match hi with Some v => v | None => snd (nth i dext (0, 0)) end)
       | _ => nth i dext (0, 0)
       end.
Proof.
  intros Hl Hall [lo [hi Hp]]. unfold parse_extrema.
  assert (E1 : forallb x_scalar l = false).
  { destruct (forallb x_scalar l) eqn:E; [|reflexivity]. rewrite forallb_forall in E. discriminate (E _ Hp). }
  rewrite E1, Hl, Nat.eqb_refl.
  assert (E2 : existsb (fun e => match e with XNum _ => true | _ => false end) l = false).
  { destruct (existsb _ l) eqn:E; [|reflexivity]. apply existsb_exists in E. destruct E as [e [He Hb]].
    destruct (Hall e He) as [->|[a [b ->]]]; discriminate Hb. }
  assert (E3 : existsb (fun e => match e with XOther => true | _ => false end) l = false).
  { destruct (existsb (fun e => match e with XOther => true | _ => false end) l) eqn:E; [|reflexivity].
    apply existsb_exists in E. destruct E as [e [He Hb]].
    destruct (Hall e He) as [->|[a [b ->]]]; discriminate Hb. }
  rewrite E2, E3. eexists. split; [reflexivity|]. split.
  - rewrite map_length, combine_length, Hl. apply Nat.min_id.
  - intros i Hi.
    set (h := fun de : R * R * exelt => match snd de with XPair lo hi => fill lo hi (fst de) | _ => fst de end).
    rewrite nth_indep with (d' := h ((0, 0), XNone)) by (rewrite map_length, combine_length, Hl, Nat.min_id; exact Hi).
    rewrite (map_nth h), combine_nth by (symmetry; exact Hl). unfold h. cbn [fst snd].
    destruct (nth i l XNone); reflexivity.
Qed.

Lemma parse_flat_shared d0 dext a b : x_scalar a = true -> x_scalar b = true ->
  parse_extrema (d0 :: dext) (Some [a; b]) =
  Ok (repeat (match a with XNum v => v | _ => fst d0 end, match b with XNum v => v | _ => snd d0 end) (S (length dext))).
Proof.
  intros Ha Hb. unfold parse_extrema. cbn [forallb]. rewrite Ha, Hb. cbn [andb].
  assert (E : fill (x_opt a) (x_opt b) d0 = (match a with XNum v => v | _ => fst d0 end, match b with XNum v => v | _ => snd d0 end)).
  { unfold fill. destruct a; try discriminate Ha; destruct b; try discriminate Hb; reflexivity. }
  rewrite E. f_equal. generalize (match a with XNum v => v | _ => fst d0 end, match b with XNum v => v | _ => snd d0 end).
  intros p. cbn [map length repeat]. f_equal. induction dext; [reflexivity|]. cbn [map length repeat]. f_equal. exact IHdext.
Qed.

(** reflect=[None]*D: rejected unless D = 2, and then all dimensions get the first one's extrema. *)
Lemma parse_all_none dext : 
  parse_extrema dext (Some (refl_extrema (repeat None (length dext)))) =
  if Nat.eqb (length dext) 2 then Ok (match dext with [] => [] | d0 :: _ => [d0; d0] end) else Err ValueError.
Proof.
  destruct dext as [|a [|b [|c t]]]; try reflexivity.
  - unfold parse_extrema. cbn. unfold fill. destruct a; reflexivity.
  - cbn [length Nat.eqb]. unfold parse_extrema.
    assert (E : forallb x_scalar (refl_extrema (repeat None (S (S (S (length t)))))) = true).
    { apply forallb_forall. intros e He. unfold refl_extrema in He. apply in_map_iff in He.
      destruct He as [o [<- Ho]]. apply repeat_spec in Ho. subst o. reflexivity. }
    rewrite E. reflexivity.
Qed.

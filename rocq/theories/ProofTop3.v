(** Unit weights, and order invariance of everything a KDE is built from. *)
From Coq Require Import Permutation FunctionalExtensionality String.
From Verif Require Import Base ModelLinAlg SpecLinAlg
  ModelKernels ModelKDE SpecKDE ProofDensity ProofTop ModelExtrema ProofExtrema.
Open Scope R_scope.
Notation length := List.length.

Lemma lsum_repeat1 m : lsum (repeat 1 m) = INR m.
Proof. induction m; [reflexivity|]. rewrite S_INR. cbn [repeat lsum]. rewrite IHm. ring. Qed.
Lemma sumsq_repeat1 m : sumsq (repeat 1 m) = INR m.
Proof. unfold sumsq. induction m; [reflexivity|]. rewrite S_INR. cbn [repeat]. rewrite sumf_cons, IHm. ring. Qed.

Lemma neff_ones m : (m <> 0)%nat -> neff_of m (Some (repeat 1 m)) = neff_of m None.
Proof.
  intros Hm. unfold neff_of. rewrite lsum_repeat1, sumsq_repeat1. field. apply not_0_INR. exact Hm.
Qed.
Lemma map_const_repeat {A B} (c : B) (l : list A) : map (fun _ => c) l = repeat c (length l).
Proof. induction l; [reflexivity|]. cbn [map length repeat]. rewrite IHl. reflexivity. Qed.

Lemma init_ones n data b diag resc d cova neffa refl :
  res_rel (fun K K' => same_kde K K' /\ kd_data K = kd_data K' /\ kd_weights K = None /\ kd_weights K' = Some (repeat 1 (length data))
      /\ kd_data K = data)
    (kde_init n data WNone b diag resc d cova neffa refl)
    (kde_init n data (WArr (repeat (Fin 1) (length data))) b diag resc d cova neffa refl).
Proof.
  unfold kde_init. destruct (Nat.eqb_spec (length data) 0) as [|Hne]; [reflexivity|].
  assert (E : check_weights (length data) (WArr (repeat (Fin 1) (length data))) = Ok (Some (repeat 1 (length data)))).
  { unfold check_weights. rewrite repeat_length, Nat.eqb_refl. cbn [negb].
    destruct (length data) as [|m]; [contradiction|]. cbn [repeat existsb f_nonzero].
    assert (Reqb 1 0 = false) as -> by (apply Reqb_false; lra). cbn [negb orb f_isfinite f_neg].
    assert (Rltb 1 0 = false) as E1 by (apply Rltb_false; lra). rewrite E1. cbn [orb].
    assert (existsb (fun x => orb (negb (f_isfinite x)) (f_neg x)) (repeat (Fin 1) m) = false) as ->.
    { induction m; [reflexivity|]. cbn [repeat existsb f_isfinite negb orb f_neg]. rewrite E1. cbn [orb]. apply IHm. lia. }
    cbn [map f_val]. f_equal. f_equal. f_equal. clear. induction m; [reflexivity|]. cbn [repeat map f_val]. rewrite IHm. reflexivity. }
  rewrite E. cbn [check_weights bind]. rewrite neff_ones by exact Hne.
  assert (Ew : wdata_of data (Some (repeat 1 (length data))) = wdata_of data None).
  { unfold wdata_of, wlist. rewrite map_const_repeat. reflexivity. }
  rewrite Ew. set (nf := match neffa with Some x => x | None => _ end).
  destruct (set_bandwidth nf n diag b resc) as [bw|]; [|reflexivity]. cbn [bind].
  split; [repeat split|]. repeat split; reflexivity.
Qed.

Lemma density_ones K K' (prob : bool) pdim refl p : same_kde K K' -> kd_data K = kd_data K' -> kd_weights K = None ->
  kd_weights K' = Some (repeat 1 (length (kd_data K))) ->
  res_rel (fun f g => forall x, f x = g x) (kde_density K prob pdim refl p) (kde_density K' prob pdim refl p).
Proof.
  intros [E1 [E2 [E3 E4]]] Ed Hw Hw'. unfold kde_density.
  assert (Hrp : resolve_params K' p = resolve_params K p) by (unfold resolve_params; rewrite E1; reflexivity).
  rewrite Hrp, <- E1, <- E3, <- E4, <- Ed, Hw, Hw'. destruct (resolve_params K p) as [ops|]; [|reflexivity]. cbn [bind].
  destruct (match (match refl with Some _ => _ | None => _ end) with Some _ => _ | None => _ end); [reflexivity|].
  destruct (kd_kernel K) as [kern|]; [|reflexivity].
  rewrite kernel_density_wlist.
  assert (Ew : wlist (match ops with Some ps => map (select ps) (kd_data K) | None => kd_data K end) None = repeat 1 (length (kd_data K))).
  { unfold wlist. rewrite map_const_repeat. destruct ops; [rewrite map_length|]; reflexivity. }
  rewrite Ew. destruct (kernel_density _ _ _ _ _ _ _) as [f|]; [|reflexivity]. cbn [bind res_rel]. intros x.
  rewrite lsum_repeat1. reflexivity.
Qed.

Lemma kde_unit_weights n data b diag resc d cova neffa refl0 (prob : bool) pdim refl p :
  res_rel (fun f g => forall x, f x = g x)
    (do K <- kde_init n data WNone b diag resc d cova neffa refl0 ;; kde_density K prob pdim refl p)
    (do K <- kde_init n data (WArr (repeat (Fin 1) (length data))) b diag resc d cova neffa refl0 ;; kde_density K prob pdim refl p).
Proof.
  eapply res_rel_bind2; [apply init_ones|]. intros K K' [Hs [Ed [Ew [Ew' Edd]]]].
  apply density_ones; auto. rewrite Edd. exact Ew'.
Qed.

Lemma res_rel_trans {A} (P Q S : A -> A -> Prop) x y z : (forall a b c, P a b -> Q b c -> S a c) ->
  res_rel P x y -> res_rel Q y z -> res_rel S x z.
Proof.
  intros H. destruct x as [a|], y as [b|], z as [c|]; cbn [res_rel]; intros H1 H2; try contradiction; [eapply H; eauto|congruence].
Qed.
Lemma res_rel_sym {A} (P : A -> A -> Prop) x y : res_rel P x y -> res_rel (fun a b => P b a) y x.
Proof. destruct x, y; cbn [res_rel]; auto. Qed.

(** A list of equal weights only needs the data permuted. *)
Lemma combine_repeat_perm {A B} (c : B) (l l' : list A) : Permutation l l' ->
  Permutation (combine l (repeat c (length l))) (combine l' (repeat c (length l'))).
Proof.
  intros H. assert (E : forall m : list A, combine m (repeat c (length m)) = map (fun x => (x, c)) m).
  { induction m; [reflexivity|]. cbn [length repeat combine map]. rewrite IHm. reflexivity. }
  rewrite !E. apply Permutation_map, H.
Qed.

Lemma kde_permutation_none n data data' b diag resc d cova neffa refl0 (prob : bool) pdim refl p :
  Permutation data data' ->
  res_rel (fun f g => forall x, f x = g x)
    (do K <- kde_init n data WNone b diag resc d cova neffa refl0 ;; kde_density K prob pdim refl p)
    (do K <- kde_init n data' WNone b diag resc d cova neffa refl0 ;; kde_density K prob pdim refl p).
Proof.
  intros HP.
  set (R0 := fun f g : pt -> R => forall x, f x = g x).
  assert (Htr : forall a b c, R0 a b -> R0 b c -> R0 a c) by (intros f g h H1 H2 x; rewrite (H1 x); apply H2).
  apply (res_rel_trans R0 R0 R0 _ _ _ Htr (kde_unit_weights n data b diag resc d cova neffa refl0 prob pdim refl p)).
  apply (res_rel_trans R0 R0 R0 _ _ _ Htr (kde_permutation n data data' (repeat (Fin 1) (length data)) (repeat (Fin 1) (length data'))
         b diag resc d cova neffa refl0 prob pdim refl p (repeat_length _ _) (repeat_length _ _) (combine_repeat_perm _ _ _ HP))).
  pose proof (res_rel_sym _ _ _ (kde_unit_weights n data' b diag resc d cova neffa refl0 prob pdim refl p)) as H.
  destruct (do K <- _ ;; _) as [f|], (do K <- _ ;; _) as [g|]; cbn [res_rel] in *; auto. intros x. symmetry. apply H.
Qed.

(* order invariance of neff, kernel matrix and extrema *)
Lemma lmin_perm l l' : Permutation l l' -> lmin l = lmin l'.
Proof.
  intros HP. destruct l as [|a t]; [apply Permutation_nil in HP; subst; reflexivity|].
  assert (Hne' : l' <> []) by (intros ->; apply Permutation_sym, Permutation_nil in HP; discriminate).
  apply Rle_antisym; apply lmin_le.
  - apply (Permutation_in _ (Permutation_sym HP)), lmin_in, Hne'.
  - apply (Permutation_in _ HP), lmin_in. discriminate.
Qed.
Lemma lmax_perm l l' : Permutation l l' -> lmax l = lmax l'.
Proof.
  intros HP. destruct l as [|a t]; [apply Permutation_nil in HP; subst; reflexivity|].
  assert (Hne' : l' <> []) by (intros ->; apply Permutation_sym, Permutation_nil in HP; discriminate).
  apply Rle_antisym; apply lmax_ge.
  - apply (Permutation_in _ HP), lmax_in. discriminate.
  - apply (Permutation_in _ (Permutation_sym HP)), lmax_in, Hne'.
Qed.

Definition same_summary (K K' : kde) : Prop :=
  kd_neff K = kd_neff K' /\ kd_kernel K = kd_kernel K' /\ forall ppf user, kde_extrema K ppf user = kde_extrema K' ppf user.

Lemma same_summary_perm K K' : same_kde K K' -> Permutation (kd_data K) (kd_data K') -> same_summary K K'.
Proof.
  intros [E1 [E2 [E3 E4]]] HP. split; [exact E2|split; [exact E3|]]. intros ppf user.
  unfold kde_extrema. rewrite <- E1, <- E2, <- E3, <- E4. destruct (kd_kernel K) as [kern|]; [|reflexivity].
  destruct (ext_out _ _ _) as [out|]; [|reflexivity]. cbv zeta. f_equal. f_equal. f_equal. unfold eff_extrema. apply map_ext.
  intros i. assert (HC : Permutation (coords i (kd_data K)) (coords i (kd_data K'))) by (apply (Permutation_map (fun q : pt => q i) HP)).
  rewrite (lmin_perm _ _ HC), (lmax_perm _ _ HC). reflexivity.
Qed.

Lemma combine_perm_l {A B} (d d' : list A) (l l' : list B) : length l = length d -> length l' = length d' ->
  Permutation (combine d l) (combine d' l') -> Permutation d d'.
Proof.
  intros H1 H2 HP. apply (Permutation_map fst) in HP.
  assert (E : forall (x : list A) (y : list B), length y = length x -> map fst (combine x y) = x).
  { induction x as [|a x IH]; intros [|b y] H; try discriminate; [reflexivity|]. cbn [combine map fst]. rewrite IH; [reflexivity|]. cbn in H. lia. }
  rewrite !E in HP by assumption. exact HP.
Qed.

Lemma init_perm_summary n data data' l l' b diag resc d cova neffa refl0 :
  length l = length data -> length l' = length data' -> Permutation (combine data l) (combine data' l') ->
  res_rel same_summary
    (kde_init n data (WArr l) b diag resc d cova neffa refl0) (kde_init n data' (WArr l') b diag resc d cova neffa refl0).
Proof.
  intros H1 H2 HP. pose proof (kde_init_perm n data data' l l' b diag resc d cova neffa refl0 H1 H2 HP) as H.
  destruct (kde_init n data _ _ _ _ _ _ _ _) as [K|], (kde_init n data' _ _ _ _ _ _ _ _) as [K'|]; cbn [res_rel] in *; try exact H.
  destruct H as [Hs [w [w' [_ [_ [L [L' HP']]]]]]]. apply same_summary_perm; [exact Hs|].
  exact (combine_perm_l _ _ _ _ L L' HP').
Qed.

(* examples: any data with a user-given identity covariance and bandwidth one *)
From Verif Require Import ProofLinAlg ProofReflect1 ProofKDE ProofExamples ProofTop2.
Lemma unit_kde n data ws d refl : data <> [] -> length ws = length data -> (forall v, In v ws -> 0 <= v) -> (exists v, In v ws /\ v <> 0) ->
  exists K, kde_init n data (WArr (map Fin ws)) (BwAtom (BNum 1)) false None d (Some ident) None refl = Ok K
    /\ built_kde n data ws d ident refl K /\ kd_neff K = lsum ws * lsum ws / sumsq ws.
Proof.
  intros Hne Hl Hnn Hex.
  destruct (weights_ok (WArr (map Fin ws)) data ws (or_intror eq_refl) Hl Hnn Hex) as [ow How].
  assert (Eow : ow = Some ws).
  { destruct (check_weights_iff (length data) (map Fin ws)) as [H1 H2].
    destruct (Classical_Prop.classic (valid_weights (length data) (map Fin ws))) as [Hv|Hv];
      [|rewrite (H2 Hv) in How; discriminate]. destruct (H1 Hv) as [w [E1 E2]]. rewrite E1 in How. injection How as <-. f_equal.
    apply map_Fin_inj. exact E2. }
  subst ow.
  assert (E : kde_init n data (WArr (map Fin ws)) (BwAtom (BNum 1)) false None d (Some ident) None refl
            = Ok (mkKDE n data (Some ws) (neff_of (length data) (Some ws)) (Some (mkKernel d n ident)) refl)).
  { unfold kde_init. destruct (Nat.eqb_spec (length data) 0) as [Ez|_]; [destruct data; [contradiction|discriminate]|].
    rewrite How. cbn [bind set_bandwidth compute_bandwidth]. unfold kernel_init. rewrite kernel_matrix_1. reflexivity. }
  eexists. split; [exact E|]. split.
  - split; [|split; [reflexivity|split; [apply ident_sym|apply ident_posdef]]].
    exists (WArr (map Fin ws)), (BwAtom (BNum 1)), false, None, (Some ident), None. split; [right; reflexivity|exact E].
  - cbn [kd_neff neff_of]. unfold Rdiv. cbn [pow]. rewrite Rmult_1_r. reflexivity.
Qed.

Lemma data2_built d refl : exists K M N, kde_init 2 data2 WNone BwNone false None d None None refl = Ok K
  /\ built_kde 2 data2 [1; 1; 1] d M refl K /\ is_inverse 2 M N /\ kd_neff K = 3.
Proof.
  destruct (data2_ok_none d refl) as [K [M [N [HK [Hk [Hs [Hp [Hi [_ [_ [_ [_ [_ Hn]]]]]]]]]]]]].
  exists K, M, N. split; [exact HK|]. split; [|split; [exact Hi|rewrite Hn; field]].
  split; [|split; [exact Hk|split; assumption]].
  exists WNone, BwNone, false, None, None, None. split; [left; split; reflexivity|exact HK].
Qed.

(* C22, C23 for the constructor *)
Lemma init_weights n data l b diag resc d cova neffa refl : data <> [] -> bw_ok n b ->
  (valid_weights (length data) l -> exists K w, kde_init n data (WArr l) b diag resc d cova neffa refl = Ok K
     /\ kd_weights K = Some w /\ map Fin w = l)
  /\ (~ valid_weights (length data) l -> kde_init n data (WArr l) b diag resc d cova neffa refl = Err ValueError)
  /\ (valid_weights (length data) l -> kde_init n data (WList l) b diag resc d cova neffa refl = Err TypeError).
Proof.
  intros Hne Hb. unfold kde_init.
  destruct (Nat.eqb_spec (length data) 0) as [Ez|_]; [destruct data; [contradiction|discriminate]|].
  destruct (check_weights_iff (length data) l) as [H1 H2]. split; [|split].
  - intros Hv. destruct (H1 Hv) as [w [E Ew]]. rewrite E. cbn [bind].
    set (nf := match neffa with Some x => x | None => _ end).
    destruct (proj1 (set_bandwidth_ok nf n diag b resc) Hb) as [bw Ebw]. rewrite Ebw. cbn [bind].
    eexists. exists w. split; [reflexivity|]. split; [reflexivity|exact Ew].
  - intros Hv. rewrite (H2 Hv). reflexivity.
  - intros Hv. rewrite (check_weights_list _ _ Hv). reflexivity.
Qed.

Lemma init_neff n data w ws b diag resc d cova refl K : weights_given w data ws ->
  kde_init n data w b diag resc d cova None refl = Ok K ->
  1 <= kd_neff K <= INR (length data)
  /\ (kd_neff K = INR (length data) <-> forall x y, In x ws -> In y ws -> x = y)
  /\ (kd_neff K = 1 <-> nnz ws = 1%nat).
Proof.
  intros Hg HK. destruct (kde_weights_of _ _ _ _ _ _ _ _ _ _ _ _ Hg HK) as (H1 & H2 & H3 & H4 & H5 & H6 & H7 & H8 & H9).
  assert (En : kd_neff K = neff_of (length data) (Some ws)).
  { unfold kde_init in HK. destruct (Nat.eqb_spec (length data) 0) as [|Hz]; [discriminate|].
    destruct (check_weights (length data) w) as [ow|] eqn:Ec; [|discriminate]. cbn [bind] in HK.
    destruct (set_bandwidth _ n diag b resc) as [bw|]; [|discriminate]. cbn [bind] in HK. injection HK as <-. cbn [kd_neff].
    cbn [kd_weights kd_data] in *. destruct ow as [v|].
    - unfold wlist in H5. rewrite H5. reflexivity.
    - unfold wlist in H5. rewrite map_const_repeat in H5. rewrite <- H5. symmetry. apply neff_ones, Hz. }
  rewrite En. apply neff_bounds; [exact H6|exact H7|].
  destruct (lsum_pos_ex ws H7 H8) as [v [Hv Hv0]]. exists v. split; [exact Hv|lra].
Qed.

Lemma density_refl_exists n data ws d M refl K (prob : bool) (r : reflspec) : built_kde n data ws d M refl K ->
  List.length r = n -> exists f, kde_density K prob n (Some r) PNone = Ok f.
Proof.
  intros HB Hr. destruct (built_inv _ _ _ _ _ _ _ HB) as (_ & _ & _ & _ & _ & Hl & _ & _ & _ & _ & Hs & Hp).
  rewrite (density_as_kernel _ _ _ _ _ _ _ prob (Some r) HB). cbv beta iota zeta.
  destruct (Nat.eqb_spec (List.length r) n); [|contradiction]. cbn [negb].
  destruct (density_refl_ex d n M data ws r Hs Hp Hl Hr) as [f Hf].
  rewrite Hf. cbn [bind]. eauto.
Qed.
Lemma density_refl_exists_stored n data ws d M (r : reflspec) K (prob : bool) : built_kde n data ws d M (Some r) K ->
  List.length r = n -> exists f, kde_density K prob n None PNone = Ok f.
Proof.
  intros HB Hr. destruct (density_refl_exists _ _ _ _ _ _ _ prob r HB Hr) as [f Hf]. exists f. rewrite <- Hf.
  rewrite !(density_as_kernel _ _ _ _ _ _ _ prob _ HB). reflexivity.
Qed.

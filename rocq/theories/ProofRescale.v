(** bw_rescale: numbers, vectors, and kernel matrices that are not symmetric. *)
From Coq Require Import String FunctionalExtensionality.
From Verif Require Import Base ModelLinAlg SpecLinAlg SpecIntegral ModelKernels ModelKDE SpecKDE ModelRescale SpecRescale
  ProofLinAlg ProofIntegral ProofKernels ProofDensity ProofKDE ProofTop2.
Open Scope R_scope.
Notation length := List.length.

Lemma mapM_nums f (l : list R) : (forall r, f (BNum r) = Ok r) -> mapM f (map BNum l) = Ok l.
Proof. intros H. induction l as [|a l IH]; [reflexivity|]. cbn [map mapM]. rewrite H. cbn [bind]. rewrite IH. reflexivity. Qed.
Lemma nth_scaled s l j : nth j (map (Rmult s) l) 0 = s * nth j l 0.
Proof. rewrite <- (Rmult_0_r s) at 1. apply (map_nth (Rmult s)). Qed.

(** A number: as in [kde_init], ... *)
Lemma rescaled_some n data w b diag s d cova neffa refl :
  kde_rescaled n data w b diag (RsNum s) d cova neffa refl = kde_init n data w b diag (Some s) d cova neffa refl.
Proof.
  unfold kde_rescaled, kde_init. destruct (Nat.eqb _ 0); [reflexivity|]. destruct (check_weights _ w) as [ow|e]; [|reflexivity]. cbn [bind].
  assert (E : forall x, set_bandwidth x n diag b (Some s) = do bw <- set_bandwidth x n diag b None ;; Ok (fun i j => s * bw i j)).
  { intros x. unfold set_bandwidth. match goal with |- bind ?a _ = _ => destruct a end; reflexivity. }
  rewrite E. destruct (set_bandwidth _ n diag b None); reflexivity.
Qed.
Lemma rescaled_none n data w b diag d cova neffa refl : kde_rescaled n data w b diag RsNone d cova neffa refl = kde_init n data w b diag None d cova neffa refl.
Proof.
  unfold kde_rescaled, kde_init. destruct (Nat.eqb _ 0); [reflexivity|]. destruct (check_weights _ w) as [ow|e]; [|reflexivity]. cbn [bind].
  destruct (set_bandwidth _ n diag b None); reflexivity.
Qed.
Lemma diag_of_times (s : R) f : (fun i j => s * diag_of f i j) = diag_of (fun i => s * f i).
Proof. extensionality i. extensionality j. unfold diag_of. destruct (Nat.eqb i j); ring. Qed.
(** ... and the same as multiplying the bandwidth. *)
Lemma set_times x n diag b b' s : times_number s b b' -> (do bw <- set_bandwidth x n diag b None ;; Ok (fun i j => s * bw i j)) = set_bandwidth x n diag b' None.
Proof.
  intros H. unfold set_bandwidth. destruct H as [r|l|isarr rows].
  - cbn [compute_bandwidth bind]. destruct diag; [rewrite diag_of_times|]; reflexivity.
  - rewrite !map_length. destruct (Nat.eqb (length l) 1); [reflexivity|]. destruct (Nat.eqb (length l) n); [|reflexivity].
    rewrite !mapM_nums by reflexivity. cbn [bind]. rewrite diag_of_times. repeat f_equal. extensionality i. symmetry. apply nth_scaled.
  - rewrite map_length. destruct (Nat.eqb (length rows) 1); [reflexivity|].
    replace (forallb (fun r => Nat.eqb (length r) n) (map (map (Rmult s)) rows)) with (forallb (fun r : list R => Nat.eqb (length r) n) rows)
      by (induction rows as [|r rows IH]; [reflexivity|]; cbn [map forallb]; rewrite map_length, <- IH; reflexivity).
    destruct (andb _ _); [|reflexivity]. destruct isarr; [|reflexivity]. cbn [bind]. f_equal. extensionality i. extensionality j.
    change (@nil R) with (map (Rmult s) []) at 2. rewrite map_nth. symmetry. apply nth_scaled.
Qed.
Lemma rescale_number : forall n data w b b' diag s d cova neffa refl, times_number s b b' ->
  kde_rescaled n data w b diag (RsNum s) d cova neffa refl = kde_rescaled n data w b' diag RsNone d cova neffa refl.
Proof.
  intros n data w b b' diag s d cova neffa refl H. unfold kde_rescaled. destruct (Nat.eqb _ 0); [reflexivity|]. destruct (check_weights _ w) as [ow|e]; [|reflexivity]. cbn [bind rescaled].
  set (x := match neffa with Some x => x | None => _ end). rewrite <- (set_times x n diag b b' s H). destruct (set_bandwidth x n diag b None); reflexivity.
Qed.
Lemma rescale_number_init : forall n data w b b' diag s d cova neffa refl, times_number s b b' ->
  kde_init n data w b diag (Some s) d cova neffa refl = kde_init n data w b' diag None d cova neffa refl.
Proof. intros n data w b b' diag s d cova neffa refl H. rewrite <- rescaled_some, <- rescaled_none. apply rescale_number, H. Qed.
(** Every bandwidth: the kernel matrix is multiplied by the square. *)
Lemma rescale_square : forall n data w b diag s d cova neffa refl K0 M, kde_rescaled n data w b diag RsNone d cova neffa refl = Ok K0 -> kd_kernel K0 = Some (mkKernel d n M) ->
  exists K M', kde_rescaled n data w b diag (RsNum s) d cova neffa refl = Ok K /\ kd_kernel K = Some (mkKernel d n M') /\ (forall i j, M' i j = s * s * M i j)
  /\ kd_data K = kd_data K0 /\ kd_weights K = kd_weights K0 /\ kd_neff K = kd_neff K0.
Proof.
  intros n data w b diag s d cova neffa refl K0 M. unfold kde_rescaled. destruct (Nat.eqb _ 0); [discriminate|]. destruct (check_weights _ w) as [ow|e]; [|discriminate]. cbn [bind rescaled].
  destruct (set_bandwidth _ n diag b None) as [bw|e]; [|discriminate]. cbn [bind]. intros E. injection E as <-. cbn [kd_kernel kd_data kd_weights kd_neff].
  destruct (match cova with Some c => Some c | None => _ end) as [C|]; [|discriminate]. intros E. injection E as <-. eexists _, _. split; [reflexivity|]. split; [reflexivity|].
  split; [intros i j; unfold kernel_matrix; ring|auto].
Qed.
(** A vector with bandwidths of independent parameters: each is multiplied by its number. *)
Lemma times_row n (l : list R) bw : (2 <= n)%nat -> length l = n -> times_array n [l] bw = Ok (fun i j => nth j l 0 * bw i j).
Proof.
  intros Hn Hl. unfold times_array. cbn [hd length forallb]. rewrite Hl, !Nat.eqb_refl. cbn [andb orb Nat.eqb]. rewrite Bool.orb_true_r.
  destruct n as [|[|n]]; [lia|lia|reflexivity].
Qed.
Lemma diag_row (l : list R) f g : (forall i, nth i l 0 * f i = g i) -> (fun i j => nth j l 0 * diag_of f i j) = diag_of g.
Proof. intros H. extensionality i. extensionality j. unfold diag_of. destruct (Nat.eqb_spec i j) as [->|]; [apply H|ring]. Qed.
Lemma nth_products l r i : length r = length l -> nth i l 0 * nth i r 0 = nth i (map (fun p => fst p * snd p) (combine l r)) 0.
Proof. revert r i. induction l as [|a l IH]; intros [|b r] [|i] H; try discriminate; cbn; try ring; apply IH; cbn in H; lia. Qed.
Lemma rescale_vector : forall n data w b b' diag l d cova neffa refl, (2 <= n)%nat -> length l = n -> times_each n l b diag b' ->
  kde_rescaled n data w b diag (RsVec l) d cova neffa refl = kde_rescaled n data w b' diag RsNone d cova neffa refl.
Proof.
  intros n data w b b' diag l d cova neffa refl Hn Hl H. unfold kde_rescaled. destruct (Nat.eqb _ 0); [reflexivity|]. destruct (check_weights _ w) as [ow|e]; [|reflexivity]. cbn [bind rescaled].
  set (x := match neffa with Some x => x | None => _ end).
  assert (E : (do bw <- set_bandwidth x n diag b None ;; times_array n [l] bw) = set_bandwidth x n diag b' None).
  { assert (N1 : Nat.eqb n 1 = false) by (apply Nat.eqb_neq; lia). unfold set_bandwidth. destruct H as [r diag Hr|r].
    - rewrite !map_length, combine_length, Hr, Hl, Nat.min_id, N1, Nat.eqb_refl, !mapM_nums by reflexivity. cbn [bind]. rewrite times_row by assumption.
      rewrite (diag_row _ _ _ (fun i => nth_products l r i ltac:(lia))). reflexivity.
    - rewrite map_length, Hl, N1, Nat.eqb_refl. rewrite <- (map_map (fun s => s * r) BNum), mapM_nums by reflexivity. cbn [compute_bandwidth bind]. rewrite times_row by assumption.
      erewrite diag_row; [reflexivity|]. intros i. cbv beta. rewrite <- (Rmult_0_l r) at 2. symmetry. apply (map_nth (fun s => s * r)). }
  rewrite <- E. destruct (set_bandwidth x n diag b None) as [bw|e]; [|reflexivity]. cbn [bind]. destruct (times_array n [l] bw); reflexivity.
Qed.
(** A vector of another length. *)
Lemma rescale_wrong_length : forall n data w b diag l d cova neffa refl K0, (2 <= n)%nat -> length l <> 1%nat -> length l <> n ->
  kde_rescaled n data w b diag RsNone d cova neffa refl = Ok K0 -> kde_rescaled n data w b diag (RsVec l) d cova neffa refl = Err ValueError.
Proof.
  intros n data w b diag l d cova neffa refl K0 Hn H1 Hl. unfold kde_rescaled. destruct (Nat.eqb _ 0); [discriminate|]. destruct (check_weights _ w) as [ow|e]; [|discriminate]. cbn [bind rescaled].
  destruct (set_bandwidth _ n diag b None) as [bw|e]; [|discriminate]. intros _. cbn [bind]. unfold times_array. cbn [hd length forallb].
  replace (Nat.eqb (length l) 1) with false by (symmetry; apply Nat.eqb_neq, H1). replace (Nat.eqb (length l) n) with false by (symmetry; apply Nat.eqb_neq, Hl). cbn [orb].
  rewrite !Bool.andb_false_r. reflexivity.
Qed.
(** Every vector: the columns of the kernel matrix are multiplied. *)
Lemma rescale_columns : forall n data w b diag l d cova neffa refl K0 M, (2 <= n)%nat -> length l = n -> kde_rescaled n data w b diag RsNone d cova neffa refl = Ok K0 -> kd_kernel K0 = Some (mkKernel d n M) ->
  exists K M', kde_rescaled n data w b diag (RsVec l) d cova neffa refl = Ok K /\ kd_kernel K = Some (mkKernel d n M') /\ (forall i j, M' i j = M i j * (nth j l 0 * nth j l 0))
  /\ kd_ndim K = kd_ndim K0 /\ kd_data K = kd_data K0 /\ kd_weights K = kd_weights K0 /\ kd_reflect K = kd_reflect K0.
Proof.
  intros n data w b diag l d cova neffa refl K0 M Hn Hl. unfold kde_rescaled. destruct (Nat.eqb _ 0); [discriminate|]. destruct (check_weights _ w) as [ow|e]; [|discriminate]. cbn [bind rescaled].
  destruct (set_bandwidth _ n diag b None) as [bw|e]; [|discriminate]. cbn [bind]. rewrite times_row by assumption. cbn [bind]. intros E. injection E as <-. cbn [kd_kernel kd_data kd_weights kd_neff kd_ndim kd_reflect].
  destruct (match cova with Some c => Some c | None => _ end) as [C|]; [|discriminate]. intros E. injection E as <-. eexists _, _. split; [reflexivity|]. split; [reflexivity|].
  split; [intros i j; unfold kernel_matrix; ring|auto].
Qed.

(** An array of two dimensions: accepted if each of its dimensions is 1 or the number of parameters; repeated along a dimension of length 1. *)
Lemma rescale_array : forall n data w b diag rows c d cova neffa refl K0 M, (2 <= n)%nat -> (forall row, In row rows -> length row = c) -> rows <> [] ->
  kde_rescaled n data w b diag RsNone d cova neffa refl = Ok K0 -> kd_kernel K0 = Some (mkKernel d n M) ->
  ((length rows = 1%nat \/ length rows = n) /\ (c = 1%nat \/ c = n) ->
    exists K M', kde_rescaled n data w b diag (RsMat rows) d cova neffa refl = Ok K /\ kd_kernel K = Some (mkKernel d n M')
    /\ (forall i j, (i < n)%nat -> (j < n)%nat -> let e := nth (j mod c) (nth (i mod length rows) rows []) 0 in M' i j = M i j * (e * e))
    /\ kd_ndim K = kd_ndim K0 /\ kd_data K = kd_data K0 /\ kd_weights K = kd_weights K0 /\ kd_reflect K = kd_reflect K0)
  /\ (~ ((length rows = 1%nat \/ length rows = n) /\ (c = 1%nat \/ c = n)) -> kde_rescaled n data w b diag (RsMat rows) d cova neffa refl = Err ValueError).
Proof.
  intros n data w b diag rows c d cova neffa refl K0 M Hn Hrect Hne. unfold kde_rescaled. destruct (Nat.eqb _ 0); [discriminate|]. destruct (check_weights _ w) as [ow|e]; [|discriminate]. cbn [bind rescaled].
  destruct (set_bandwidth _ n diag b None) as [bw|e]; [|discriminate]. cbn [bind]. intros E. injection E as <-. cbn [kd_kernel kd_data kd_weights kd_neff kd_ndim kd_reflect].
  destruct (match cova with Some c => Some c | None => _ end) as [C|]; [|discriminate]. intros E. injection E as <-.
  assert (Hc : length (hd [] rows) = c) by (destruct rows; [contradiction|apply Hrect; left; reflexivity]).
  unfold times_array. rewrite Hc.
  assert (Hf : forallb (fun l : list R => Nat.eqb (length l) c) rows = true) by (apply forallb_forall; intros l Hl; apply Nat.eqb_eq, Hrect, Hl).
  rewrite Hf. cbn [andb].
  assert (Hb : orb (Nat.eqb (length rows) 1) (Nat.eqb (length rows) n) = true <-> (length rows = 1%nat \/ length rows = n)) by (rewrite Bool.orb_true_iff, !Nat.eqb_eq; reflexivity).
  assert (Hb' : orb (Nat.eqb c 1) (Nat.eqb c n) = true <-> (c = 1%nat \/ c = n)) by (rewrite Bool.orb_true_iff, !Nat.eqb_eq; reflexivity).
  split; intros H.
  - destruct H as [H1 H2]. rewrite (proj2 Hb H1), (proj2 Hb' H2). cbn [andb bind]. eexists _, _. split; [reflexivity|]. split; [reflexivity|].
    split; [|auto]. intros i j Hi Hj. cbv zeta. unfold kernel_matrix.
    assert (Ei : (i mod length rows)%nat = if Nat.eqb (length rows) 1 then O else i).
    { destruct (Nat.eqb_spec (length rows) 1) as [E1|N1]; [rewrite E1; apply Nat.mod_1_r|]. apply Nat.mod_small. lia. }
    assert (Ej : (j mod c)%nat = if Nat.eqb c 1 then O else j).
    { destruct (Nat.eqb_spec c 1) as [E1|N1]; [rewrite E1; apply Nat.mod_1_r|]. apply Nat.mod_small. lia. }
    rewrite Ei, Ej. ring.
  - destruct (orb (Nat.eqb (length rows) 1) _) eqn:E1; [|reflexivity]. destruct (orb (Nat.eqb c 1) _) eqn:E2; [|reflexivity].
    exfalso. apply H. split; [apply Hb; reflexivity|apply Hb'; reflexivity].
Qed.

(* ------------------------------------------------------------ matrices that are not symmetric *)
Lemma any_total d n M N W data w base : (1 <= n)%nat -> minv n M = Some N -> chol n N = Some W -> mdet n M <> 0 -> length w = length data ->
  exists f, kernel_density (mkKernel d n M) n n data (Some w) None None = Ok f /\ is_tintN n f base (lsum w * (1 / (rprod n (fun i => W i i) * sqrt (Rabs (mdet n M))))).
Proof.
  intros Hn HN HW Hd Hw. eexists. split.
  - unfold kernel_density. cbn [k_ndim k_matrix k_dist bind fst snd]. rewrite Nat.eqb_refl, Hw, Nat.eqb_refl. cbn [negb bind]. rewrite HN, HW. reflexivity.
  - cbv beta. destruct (chol_sound n N W HW) as [Hz Hp _]. assert (HP : 0 < rprod n (fun i => W i i)) by (apply rprod_pos; exact Hp).
    assert (Hs : 0 < sqrt (Rabs (mdet n M))) by (apply sqrt_lt_R0, Rabs_pos_lt, Hd). pose proof (dist_norm_pos d n Hn) as Hdn.
    set (Q := dist_norm d n / rprod n (fun i => W i i)). set (Z := sqrt (Rabs (mdet n M)) * dist_norm d n). assert (HZ : 0 < Z) by (apply Rmult_lt_0_compat; assumption).
    assert (H : is_tintN n (fun x => sumf (fun dw => snd dw * prof d (white_dist2 n W x (fst dw))) (combine data w)) base (sumf (fun dw => snd dw * Q) (combine data w))).
    { apply (tintN_sumf n (fun (dw : pt * R) x => snd dw * prof d (white_dist2 n W x (fst dw))) (fun dw => snd dw * Q)). intros dw _. apply tintN_scal, kernel_integral; auto. }
    rewrite sumf_scal_r in H.
    assert (Es : sumf snd (combine data w) = lsum w).
    { unfold sumf. f_equal. clear -Hw. revert w Hw. induction data as [|x xs IH]; intros [|y ys] H; try discriminate; [reflexivity|]. simpl. f_equal. apply IH. simpl in H; congruence. }
    rewrite Es in H. apply (tintN_scal n (/ Z)) in H.
    replace (/ Z * (lsum w * Q)) with (lsum w * (1 / (rprod n (fun i => W i i) * sqrt (Rabs (mdet n M))))) in H by (unfold Z, Q; field; repeat split; lra).
    apply tintN_ext with (2 := H). intros x. unfold eval_numba, Rdiv. rewrite Rmult_comm. f_equal. apply sumf_ext. intros; ring.
Qed.
(** Two parameters: the inverse, and the decomposition of its upper triangle. *)
Lemma pair_inverse (M : mat) : M 1%nat 1%nat <> 0 -> M O O * M 1%nat 1%nat - M O 1%nat * M 1%nat O <> 0 ->
  exists N, minv 2 M = Some N /\ mdet 2 M = M O O * M 1%nat 1%nat - M O 1%nat * M 1%nat O
  /\ N O O = M 1%nat 1%nat / (M O O * M 1%nat 1%nat - M O 1%nat * M 1%nat O) /\ N O 1%nat = - M O 1%nat / (M O O * M 1%nat 1%nat - M O 1%nat * M 1%nat O)
  /\ N 1%nat 1%nat = M O O / (M O O * M 1%nat 1%nat - M O 1%nat * M 1%nat O).
Proof.
  intros H1 HD. set (D := M O O * M 1%nat 1%nat - M O 1%nat * M 1%nat O) in *. assert (ES : schur 1 M O O = D / M 1%nat 1%nat) by (unfold schur, D; field; exact H1).
  assert (HS : schur 1 M O O <> 0) by (rewrite ES; apply Rmult_integral_contrapositive; split; [exact HD|apply Rinv_neq_0_compat, H1]).
  eexists. split; [|split; [|split; [|split]]].
  - cbn [minv]. destruct (Req_EM_T (M 1%nat 1%nat) 0); [contradiction|]. destruct (Req_EM_T (schur 1 M O O) 0); [contradiction|]. reflexivity.
  - cbn [mdet]. rewrite ES. field. exact H1.
  - unfold border_inv. cbn. rewrite ES. field. split; assumption.
  - unfold border_inv. cbn. rewrite ES. field. split; assumption.
  - unfold border_inv. cbn. rewrite ES. unfold D in *. field. split; assumption.
Qed.
Lemma pair_chol (N : mat) : 0 < N O O ->
  (0 < N O O * N 1%nat 1%nat - N O 1%nat * N O 1%nat -> exists W, chol 2 N = Some W /\ rprod 2 (fun i => W i i) = sqrt (N O O * N 1%nat 1%nat - N O 1%nat * N O 1%nat))
  /\ (N O O * N 1%nat 1%nat - N O 1%nat * N O 1%nat <= 0 -> chol 2 N = None).
Proof.
  intros H0. set (a := N O O) in *. set (b := N O 1%nat). set (c := N 1%nat 1%nat). assert (SQ : 0 < sqrt a) by (apply sqrt_lt_R0, H0).
  assert (E0 : a - rsum 0 (fun k => fsub 0 (fun _ _ => 0) (fun i => N i O) k * fsub 0 (fun _ _ => 0) (fun i => N i O) k) = a) by (cbn; ring).
  set (U := chol_col 0 (fun _ _ => 0) (fsub 0 (fun _ _ => 0) (fun i => N i O)) (sqrt a)).
  assert (E1 : chol 1 N = Some U) by (cbn [chol]; fold a; rewrite E0; destruct (Rlt_dec 0 a); [reflexivity|contradiction]).
  assert (EU : U O O = sqrt a) by reflexivity. clearbody U. assert (EF : fsub 1 U (fun i => N i 1%nat) O = b / sqrt a) by (cbn; rewrite EU; fold b; f_equal; ring).
  assert (ED : c - rsum 1 (fun k => fsub 1 U (fun i => N i 1%nat) k * fsub 1 U (fun i => N i 1%nat) k) = (a * c - b * b) / a).
  { unfold rsum. cbn [seq map fold_right]. change (c - rsum 1 (fun k => fsub 1 U (fun i => N i 1%nat) k * fsub 1 U (fun i => N i 1%nat) k) = (a * c - b * b) / a).
    replace (rsum 1 (fun k => fsub 1 U (fun i => N i 1%nat) k * fsub 1 U (fun i => N i 1%nat) k)) with (fsub 1 U (fun i => N i 1%nat) O * fsub 1 U (fun i => N i 1%nat) O) by (cbn; ring).
    rewrite EF. replace (b / sqrt a * (b / sqrt a)) with (b * b / (sqrt a * sqrt a)) by (field; lra). rewrite sqrt_sqrt by lra. field. lra. }
  assert (E2 : chol 2 N = if Rlt_dec 0 ((a * c - b * b) / a) then Some (chol_col 1 U (fsub 1 U (fun i => N i 1%nat)) (sqrt ((a * c - b * b) / a))) else None).
  { rewrite <- ED. change (chol 2 N) with (match chol 1 N with None => None | Some U => let u := fsub 1 U (fun i => N i 1%nat) in let d2 := N 1%nat 1%nat - rsum 1 (fun k => u k * u k) in
      if Rlt_dec 0 d2 then Some (chol_col 1 U u (sqrt d2)) else None end). rewrite E1. reflexivity. }
  rewrite E2. split; intros H.
  - assert (P : 0 < (a * c - b * b) / a) by (apply Rmult_lt_0_compat; [exact H|apply Rinv_0_lt_compat, H0]). destruct (Rlt_dec 0 ((a * c - b * b) / a)); [|contradiction].
    eexists. split; [reflexivity|]. unfold rprod. cbn. rewrite EU. replace (a * c - b * b) with (a * ((a * c - b * b) / a)) at 2 by (field; lra). rewrite sqrt_mult by lra. ring.
  - destruct (Rlt_dec 0 ((a * c - b * b) / a)) as [P|]; [|reflexivity]. exfalso. assert (a * ((a * c - b * b) / a) <= 0) by (replace (a * ((a * c - b * b) / a)) with (a * c - b * b) by (field; lra); exact H).
    assert (0 < a * ((a * c - b * b) / a)) by (apply Rmult_lt_0_compat; assumption). lra.
Qed.
(** The density of two parameters whose kernel matrix has its columns multiplied. *)
Lemma pair_total : forall data w ws b diag p q d cova neffa M K0 (prob : bool) base, p <> 0 -> q <> 0 -> weights_given w data ws ->
  kde_rescaled 2 data w b diag RsNone d cova neffa None = Ok K0 -> kd_kernel K0 = Some (mkKernel d 2 M) -> symmetric 2 M -> posdef 2 M ->
  exists K, kde_rescaled 2 data w b diag (RsVec [p; q]) d cova neffa None = Ok K
  /\ (M O 1%nat * M O 1%nat * (q * q) < M O O * M 1%nat 1%nat * (p * p) -> exists f, kde_density K prob 2 None PNone = Ok f
      /\ is_tintN 2 f base (mass prob ws * sqrt ((M O O * M 1%nat 1%nat - M O 1%nat * M O 1%nat) / (M O O * M 1%nat 1%nat - M O 1%nat * M O 1%nat * (q * q / (p * p))))))
  /\ (M O O * M 1%nat 1%nat * (p * p) <= M O 1%nat * M O 1%nat * (q * q) -> kde_density K prob 2 None PNone = Err LinAlgError).
Proof.
  intros data w ws b diag p q d cova neffa M K0 prob base Hp Hq Hw HK Hk Hs Hpd.
  destruct (rescale_columns 2 data w b diag [p; q] d cova neffa None K0 M (le_n 2) eq_refl HK Hk) as (K & M' & EK & Ek & EM & En & Ed & Ew & Er). exists K. split; [exact EK|].
  rewrite rescaled_none in HK. assert (HB : built_kde 2 data ws d M None K0) by (split; [exists w, b, diag, None, cova, neffa; split; assumption|auto]).
  destruct (built_inv _ _ _ _ _ _ _ HB) as (En0 & Ed0 & Hne & Er0 & Ew0 & Hl & Hnn & Hps & Et & _). rewrite En0 in En. rewrite Ed0 in Ed. rewrite Er0 in Er.
  assert (P2 : 0 < p * p) by (apply Rsqr_pos_lt, Hp). assert (Q2 : 0 < q * q) by (apply Rsqr_pos_lt, Hq).
  assert (D0 : 0 < M O O * M 1%nat 1%nat - M O 1%nat * M O 1%nat /\ 0 < M O O /\ 0 < M 1%nat 1%nat).
  { pose proof (posdef_diag 2 M O Hpd ltac:(lia)). pose proof (posdef_diag 2 M 1 Hpd ltac:(lia)). split; [|split; assumption].
    pose proof (mdet_posdef 2 M Hs Hpd) as HD. destruct (pair_inverse M) as (N & _ & E & _); [lra| |].
    - cbn [mdet] in HD. unfold schur in HD. intros Z. replace (M 1%nat 1%nat * ((M O O - M O 1%nat * M 1%nat O / M 1%nat 1%nat) * 1)) with (M O O * M 1%nat 1%nat - M O 1%nat * M 1%nat O) in HD by (field; lra). lra.
    - rewrite E, (Hs 1%nat O) in HD by lia. exact HD. }
  destruct D0 as (D0 & A0 & A1). pose proof (Hs 1%nat O ltac:(lia) ltac:(lia)) as ES.
  set (a := M O O) in *. set (m := M O 1%nat) in *. set (c := M 1%nat 1%nat) in *.
  assert (E00 : M' O O = a * (p * p)) by apply EM. assert (E01 : M' O 1%nat = m * (q * q)) by apply EM. assert (E10 : M' 1%nat O = m * (p * p)) by (rewrite EM, ES; reflexivity). assert (E11 : M' 1%nat 1%nat = c * (q * q)) by apply EM.
  assert (DD : M' O O * M' 1%nat 1%nat - M' O 1%nat * M' 1%nat O = (a * c - m * m) * (p * p) * (q * q)) by (rewrite E00, E01, E10, E11; ring).
  assert (DP : 0 < (a * c - m * m) * (p * p) * (q * q)) by (repeat first [assumption|apply Rmult_lt_0_compat]).
  destruct (pair_inverse M') as (N & HN & Edet & N00 & N01 & N11); [rewrite E11; apply Rgt_not_eq, Rmult_lt_0_compat; assumption|rewrite DD; lra|].
  rewrite DD in Edet, N00, N01, N11. rewrite E11 in N00. rewrite E01 in N01. rewrite E00 in N11.
  assert (N0p : 0 < N O O) by (rewrite N00; apply Rmult_lt_0_compat; [apply Rmult_lt_0_compat; assumption|apply Rinv_0_lt_compat, DP]).
  destruct (pair_chol N N0p) as [C1 C2].
  assert (EQ : N O O * N 1%nat 1%nat - N O 1%nat * N O 1%nat = (a * c * (p * p) - m * m * (q * q)) / ((a * c - m * m) * (a * c - m * m) * (p * p) * (p * p) * (q * q))).
  { rewrite N00, N01, N11. field. repeat split; try lra; assumption. }
  assert (DEN : 0 < (a * c - m * m) * (a * c - m * m) * (p * p) * (p * p) * (q * q)) by (repeat first [assumption|apply Rmult_lt_0_compat]).
  rewrite EQ in C1, C2.
  assert (KD : kde_density K prob 2 None PNone = do f <- kernel_density (mkKernel d 2 M') 2 2 data (Some ws) None None ;; Ok (scaled prob ws f)).
  { pose proof (kde_density_plain K d M' prob) as P. rewrite En, Ed in P. rewrite (P Ek Er). clear P.
    replace (kernel_density (mkKernel d 2 M') 2 2 data (kd_weights K) None None) with (kernel_density (mkKernel d 2 M') 2 2 data (Some ws) None None).
    - destruct (kernel_density _ _ _ _ _ _ _); [|reflexivity]. cbn [bind]. unfold scaled. rewrite Ew, <- Et. reflexivity.
    - rewrite Ew. unfold wlist in Ew0. destruct (kd_weights K0); [rewrite Ew0; reflexivity|]. rewrite kernel_density_ones. unfold ones. rewrite Ew0. reflexivity. }
  rewrite KD. split; intros H.
  - destruct C1 as (W & HW & HP); [apply Rmult_lt_0_compat; [lra|apply Rinv_0_lt_compat, DEN]|].
    destruct (any_total d 2 M' N W data ws base ltac:(lia) HN HW ltac:(rewrite Edet; lra) Hl) as (f & Hf & Hi). rewrite Hf. cbn [bind]. eexists. split; [reflexivity|].
    apply scaled_tint; [exact Hps|]. rewrite HP, Edet in Hi. rewrite Rabs_pos_eq in Hi by lra.
    replace (sqrt ((a * c - m * m) / (a * c - m * m * (q * q / (p * p))))) with (1 / (sqrt ((a * c * (p * p) - m * m * (q * q)) / ((a * c - m * m) * (a * c - m * m) * (p * p) * (p * p) * (q * q))) * sqrt ((a * c - m * m) * (p * p) * (q * q)))); [exact Hi|].
    assert (X0 : 0 < (a * c * (p * p) - m * m * (q * q)) / ((a * c - m * m) * (p * p))) by (apply Rmult_lt_0_compat; [lra|apply Rinv_0_lt_compat, Rmult_lt_0_compat; assumption]).
    rewrite <- sqrt_mult; [|apply Rlt_le, Rmult_lt_0_compat; [lra|apply Rinv_0_lt_compat, DEN]|lra].
    replace ((a * c * (p * p) - m * m * (q * q)) / ((a * c - m * m) * (a * c - m * m) * (p * p) * (p * p) * (q * q)) * ((a * c - m * m) * (p * p) * (q * q))) with ((a * c * (p * p) - m * m * (q * q)) / ((a * c - m * m) * (p * p))) by (field; repeat split; try lra; assumption).
    replace ((a * c - m * m) / (a * c - m * m * (q * q / (p * p)))) with (/ ((a * c * (p * p) - m * m * (q * q)) / ((a * c - m * m) * (p * p)))).
    + rewrite sqrt_inv. set (y := sqrt _). unfold Rdiv. ring.
    + replace (a * c - m * m * (q * q / (p * p))) with ((a * c * (p * p) - m * m * (q * q)) / (p * p)) by (field; assumption).
      assert (HD1 : a * c * (p * p) - m * m * (q * q) <> 0) by (apply Rgt_not_eq; lra). set (D1 := a * c * (p * p) - m * m * (q * q)) in *. clearbody D1. field. repeat split; try lra; assumption.
  - assert (HW : chol 2 N = None).
    { apply C2. apply Rmult_le_reg_r with ((a * c - m * m) * (a * c - m * m) * (p * p) * (p * p) * (q * q)); [exact DEN|]. unfold Rdiv. rewrite Rmult_assoc, Rinv_l by lra. lra. }
    unfold kernel_density. cbn [k_ndim k_matrix k_dist bind fst snd Nat.eqb negb]. rewrite Hl, Nat.eqb_refl. cbn [bind]. rewrite HN, HW. reflexivity.
Qed.

(** Two parameters with correlation 1/2, one of the bandwidths rescaled: the total exceeds one; rescaled further: LinAlgError. *)
Definition half_corr : mat := fun i j => if Nat.eqb i j then 1 else 1 / 2.
Lemma half_corr_posdef : symmetric 2 half_corr /\ posdef 2 half_corr.
Proof.
  split; [intros i j _ _; unfold half_corr; rewrite Nat.eqb_sym; reflexivity|]. intros x (i & Hi & Hx).
  assert (E : quad 2 half_corr x = x O * x O + x O * x 1%nat + x 1%nat * x 1%nat) by (unfold quad, half_corr; cbn; field). rewrite E.
  pose proof (Rsqr_pos_lt _ Hx) as P. pose proof (Rle_0_sqr (x O / 2 + x 1%nat)) as A. pose proof (Rle_0_sqr (x O + x 1%nat / 2)) as B. unfold Rsqr in *. destruct i as [|[|i]]; [| |lia]; lra.
Qed.
Definition half_kde : kde := mkKDE 2 [fun _ => 0] None 1 (Some (mkKernel Gaussian 2 half_corr)) None.
Lemma half_kde_init : kde_rescaled 2 [fun _ => 0] WNone (BwAtom (BNum 1)) false RsNone Gaussian (Some half_corr) (Some 1) None = Ok half_kde.
Proof.
  unfold kde_rescaled, half_kde. cbn [length Nat.eqb check_weights bind set_bandwidth compute_bandwidth rescaled]. unfold kernel_init. do 3 f_equal.
  f_equal. extensionality i. extensionality j. unfold kernel_matrix. ring.
Qed.
Lemma rescale_vector_refuted : exists data w b d cova neffa K0 M f0 base, kde_rescaled 2 data w b false RsNone d cova neffa None = Ok K0 /\ kd_kernel K0 = Some (mkKernel d 2 M) /\ symmetric 2 M /\ posdef 2 M
  /\ kde_pdf K0 2 None PNone = Ok f0 /\ is_tintN 2 f0 base 1
  /\ (exists K f v, kde_rescaled 2 data w b false (RsVec [1; 3 / 2]) d cova neffa None = Ok K /\ kde_pdf K 2 None PNone = Ok f /\ is_tintN 2 f base v /\ 1 < v)
  /\ (exists K, kde_rescaled 2 data w b false (RsVec [1; 3]) d cova neffa None = Ok K /\ kde_pdf K 2 None PNone = Err LinAlgError).
Proof.
  destruct half_corr_posdef as [Hs Hp]. exists [fun _ => 0], WNone, (BwAtom (BNum 1)), Gaussian, (Some half_corr), (Some 1), half_kde, half_corr.
  assert (HB : built_kde 2 [fun _ => 0] [1] Gaussian half_corr None half_kde).
  { split; [|split; [reflexivity|split; assumption]]. exists WNone, (BwAtom (BNum 1)), false, None, (Some half_corr), (Some 1). split; [left; split; reflexivity|]. rewrite <- rescaled_none. exact half_kde_init. }
  destruct (top_integral 2 _ _ _ _ _ true (fun _ => 0) ltac:(lia) HB) as (f0 & H0 & I0). exists f0, (fun _ => 0). split; [exact half_kde_init|]. split; [reflexivity|]. split; [exact Hs|]. split; [exact Hp|].
  split; [exact H0|]. split; [exact I0|]. split.
  - destruct (pair_total [fun _ => 0] WNone [1] (BwAtom (BNum 1)) false 1 (3 / 2) Gaussian (Some half_corr) (Some 1) half_corr half_kde true (fun _ => 0) ltac:(lra) ltac:(lra) (or_introl (conj eq_refl eq_refl)) half_kde_init eq_refl Hs Hp) as (K & HK & A & _).
    destruct A as (f & Hf & I); [unfold half_corr; cbn; lra|]. exists K, f. eexists. split; [exact HK|]. split; [exact Hf|]. split; [exact I|].
    unfold mass, half_corr. cbn [Nat.eqb]. rewrite Rmult_1_l. rewrite <- sqrt_1 at 1. apply sqrt_lt_1; lra.
  - destruct (pair_total [fun _ => 0] WNone [1] (BwAtom (BNum 1)) false 1 3 Gaussian (Some half_corr) (Some 1) half_corr half_kde true (fun _ => 0) ltac:(lra) ltac:(lra) (or_introl (conj eq_refl eq_refl)) half_kde_init eq_refl Hs Hp) as (K & HK & _ & B).
    exists K. split; [exact HK|]. apply B. unfold half_corr; cbn; lra.
Qed.

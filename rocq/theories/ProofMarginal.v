(** Selecting parameters: order (C28) and Gaussian marginals (C27). *)
From Coquelicot Require Import Coquelicot.
From Coq Require Import Permutation FunctionalExtensionality.
From Verif Require Import Base ModelLinAlg SpecLinAlg ProofLinAlg SpecIntegral ProofIntegral
  ProofWallis ProofGauss ModelKernels SpecKernels ProofKernels ModelKDE SpecKDE ProofDensity.
Open Scope R_scope.

(* ---------------------------------------------------------------- sums over lists of indices *)
Lemma sumf_nth (f : nat -> R) ps : rsum (length ps) (fun k => f (nth k ps O)) = sumf f ps.
Proof.
  induction ps as [|p ps IH]; [reflexivity|]. cbn [length]. rewrite rsum_shift. cbn [nth].
  rewrite IH. reflexivity.
Qed.

Lemma sumf_seq (f : nat -> R) n : sumf f (seq 0 n) = rsum n f.
Proof.
  rewrite <- sumf_nth, seq_length. apply rsum_ext. intros k Hk. rewrite seq_nth by exact Hk. reflexivity.
Qed.

Lemma rsum_reindex n ps f : Permutation ps (seq 0 n) -> rsum n (fun k => f (nth k ps O)) = rsum n f.
Proof.
  intros H. pose proof (Permutation_length H) as Hl. rewrite seq_length in Hl.
  rewrite <- Hl at 1. rewrite sumf_nth. rewrite (sumf_perm _ _ _ H). apply sumf_seq.
Qed.

(* ---------------------------------------------------------------- determinant along a list *)
Definition schurx (x : nat) (M : mat) : mat := fun i j => M i j - M i x * M x j / M x x.
Fixpoint ldet (l : list nat) (M : mat) : R :=
  match l with [] => 1 | x :: r => M x x * ldet r (schurx x M) end.

Definition lquad (l : list nat) (M : mat) (v : nat -> R) : R :=
  sumf (fun i => sumf (fun j => v i * M i j * v j) l) l.
Record good (l : list nat) (M : mat) : Prop := {
  g_nd : NoDup l;
  g_sym : forall i j, In i l -> In j l -> M i j = M j i;
  g_pd : forall v, (exists i, In i l /\ v i <> 0) -> 0 < lquad l M v }.

Lemma lquad_perm l l' M v : Permutation l l' -> lquad l M v = lquad l' M v.
Proof.
  intros H. unfold lquad. rewrite (sumf_perm _ _ _ H). apply sumf_ext. intros; apply sumf_perm, H.
Qed.
Lemma good_perm l l' M : Permutation l l' -> good l M -> good l' M.
Proof.
  intros H [H1 H2 H3]. pose proof (Permutation_sym H) as H'. constructor.
  - apply Permutation_NoDup with l; assumption.
  - intros i j Hi Hj. apply H2; apply Permutation_in with l'; assumption.
  - intros v [i [Hi Hv]]. rewrite <- (lquad_perm l l') by exact H. apply H3. exists i.
    split; [apply Permutation_in with l'; assumption|exact Hv].
Qed.

Lemma lquad_cons x l M v : (forall j, In j l -> M x j = M j x) ->
  lquad (x :: l) M v = v x * M x x * v x + 2 * (v x * sumf (fun j => M x j * v j) l) + lquad l M v.
Proof.
  intros Hs. unfold lquad. rewrite sumf_cons, sumf_cons.
  rewrite (sumf_ext (fun i => sumf (fun j => v i * M i j * v j) (x :: l))
             (fun i => v i * M i x * v x + sumf (fun j => v i * M i j * v j) l)) by reflexivity.
  rewrite sumf_plus.
  rewrite (sumf_ext (fun j => v x * M x j * v j) (fun j => v x * (M x j * v j))) by (intros; ring).
  rewrite (sumf_ext (fun i => v i * M i x * v x) (fun j => v x * (M x j * v j)) l).
  - rewrite !sumf_scal. ring.
  - intros j Hj. rewrite Hs by exact Hj. ring.
Qed.

Lemma good_diag x l M : good (x :: l) M -> 0 < M x x.
Proof.
  intros [H1 H2 H3]. inversion H1 as [|? ? Hni Hnd]; subst.
  specialize (H3 (fun k => if Nat.eqb k x then 1 else 0)).
  rewrite lquad_cons in H3 by (intros j Hj; apply H2; [left; reflexivity|right; exact Hj]).
  rewrite Nat.eqb_refl in H3.
  rewrite (sumf_zero (fun j => M x j * (if Nat.eqb j x then 1 else 0))) in H3.
  2:{ intros j Hj. destruct (Nat.eqb_spec j x) as [->|]; [contradiction|ring]. }
  unfold lquad in H3.
  rewrite (sumf_zero (fun i => sumf _ l)) in H3.
  2:{ intros i Hi. apply sumf_zero. intros j Hj.
      destruct (Nat.eqb_spec i x) as [->|]; [contradiction|ring]. }
  assert (0 < 1 * M x x * 1 + 2 * (1 * 0) + 0); [|lra].
  apply H3. exists x. split; [left; reflexivity|]. rewrite Nat.eqb_refl. lra.
Qed.

Lemma good_schur x l M : good (x :: l) M -> good l (schurx x M).
Proof.
  intros H. pose proof (good_diag x l M H) as Hd. destruct H as [H1 H2 H3].
  inversion H1 as [|? ? Hni Hnd]; subst. constructor.
  - exact Hnd.
  - intros i j Hi Hj. unfold schurx.
    rewrite (H2 i j), (H2 i x), (H2 x j) by (simpl; auto). unfold Rdiv. ring.
  - intros v [i [Hi Hv]].
    set (s := sumf (fun j => M x j * v j) l).
    set (u := fun k => if Nat.eqb k x then - s / M x x else v k).
    assert (Hu : forall j, In j l -> u j = v j).
    { intros j Hj. unfold u. destruct (Nat.eqb_spec j x) as [->|]; [contradiction|reflexivity]. }
    assert (Hq : 0 < lquad (x :: l) M u).
    { apply H3. exists i. split; [right; exact Hi|]. rewrite Hu by exact Hi. exact Hv. }
    rewrite lquad_cons in Hq by (intros j Hj; apply H2; simpl; auto).
    rewrite (sumf_ext (fun j => M x j * u j) (fun j => M x j * v j)) in Hq
      by (intros j Hj; rewrite Hu by exact Hj; reflexivity). fold s in Hq.
    assert (Eu : lquad l M u = lquad l M v).
    { unfold lquad. apply sumf_ext; intros a Ha. apply sumf_ext; intros b Hb.
      rewrite !Hu by assumption. reflexivity. }
    rewrite Eu in Hq. unfold u in Hq. rewrite Nat.eqb_refl in Hq.
    assert (Es : lquad l (schurx x M) v = lquad l M v - s * s / M x x).
    { unfold lquad, schurx.
      rewrite (sumf_ext _ (fun a => sumf (fun j => v a * M a j * v j) l - (M x a * v a) * (s / M x x))).
      - rewrite sumf_minus, sumf_scal_r. fold s. unfold Rdiv. ring.
      - intros a Ha. unfold s, Rdiv. rewrite <- Rmult_assoc, <- sumf_scal, <- sumf_scal_r, <- sumf_minus.
        apply sumf_ext. intros b Hb. rewrite (H2 a x) by (simpl; auto). ring. }
    rewrite Es.
    replace (lquad l M v - s * s / M x x)
      with (- s / M x x * M x x * (- s / M x x) + 2 * (- s / M x x * s) + lquad l M v) by (field; lra).
    exact Hq.
Qed.

Lemma schurx_comm x y M : M x x <> 0 -> M y y <> 0 -> M x x * M y y - M x y * M y x <> 0 ->
  schurx y (schurx x M) = schurx x (schurx y M).
Proof.
  intros Hx Hy Hd. extensionality i. extensionality j. unfold schurx. field.
  repeat split; auto; lra.
Qed.

Lemma ldet_perm l l' : Permutation l l' -> forall M, good l M -> ldet l M = ldet l' M.
Proof.
  induction 1 as [|x l l' Hp IH|x y l|l l' l'' H1 IH1 H2 IH2]; intros M Hg; cbn [ldet].
  - reflexivity.
  - rewrite IH; [reflexivity|]. apply good_schur, Hg.
  - pose proof (good_diag _ _ _ Hg) as Hy.
    pose proof (good_diag _ _ _ (good_schur _ _ _ Hg)) as Hxs.
    assert (Hg' : good (x :: y :: l) M) by (apply good_perm with (2 := Hg); apply perm_swap).
    pose proof (good_diag _ _ _ Hg') as Hx.
    assert (Hm : M y y * M x x - M y x * M x y <> 0).
    { unfold schurx in Hxs. intros E. 
      assert (M x x - M x y * M y x / M y y = (M y y * M x x - M y x * M x y) / M y y) by (field; lra).
      rewrite E in H. unfold Rdiv in H. lra. }
    rewrite (schurx_comm y x) by (auto; lra).
    set (D := ldet l _). unfold schurx. field. lra.
  - rewrite IH1 by exact Hg. apply IH2. apply good_perm with l; assumption.
Qed.

Lemma schur_submat ps x M :
  agree (length ps) (schur (length ps) (submat (ps ++ [x]) M)) (submat ps (schurx x M)).
Proof.
  intros i j Hi Hj. unfold schur, submat, schurx.
  rewrite !app_nth1 by assumption. rewrite nth_middle. reflexivity.
Qed.

Lemma mdet_ldet ps : forall M, mdet (length ps) (submat ps M) = ldet (rev ps) M.
Proof.
  induction ps as [|x ps IH] using rev_ind; intros M; [reflexivity|].
  rewrite app_length, Nat.add_comm, rev_app_distr. cbn [length Nat.add app rev mdet ldet].
  rewrite (mdet_ext _ _ _ (schur_submat ps x M)), IH.
  f_equal. unfold submat. rewrite nth_middle. reflexivity.
Qed.

Lemma good_of_posdef n M : symmetric n M -> posdef n M -> good (seq 0 n) M.
Proof.
  intros Hs Hp. constructor.
  - apply seq_NoDup.
  - intros i j Hi Hj. apply in_seq in Hi, Hj. apply Hs; lia.
  - intros v [i [Hi Hv]]. apply in_seq in Hi.
    assert (E : lquad (seq 0 n) M v = quad n M v).
    { unfold lquad, quad. rewrite sumf_seq. apply rsum_ext; intros; apply sumf_seq. }
    rewrite E. apply Hp. exists i. split; [lia|exact Hv].
Qed.

Lemma mdet_submat n ps M : symmetric n M -> posdef n M -> Permutation ps (seq 0 n) ->
  mdet n (submat ps M) = mdet n M.
Proof.
  intros Hs Hp HP. pose proof (Permutation_length HP) as Hl. rewrite seq_length in Hl.
  rewrite <- Hl at 1. rewrite mdet_ldet.
  rewrite (ldet_perm (rev ps) (rev (seq 0 n))).
  - rewrite <- mdet_ldet, seq_length. apply mdet_ext. intros i j Hi Hj. unfold submat.
    rewrite !seq_nth by assumption. reflexivity.
  - rewrite <- !Permutation_rev. exact HP.
  - apply good_perm with (seq 0 n); [|apply good_of_posdef; assumption].
    rewrite <- Permutation_rev. symmetry. exact HP.
Qed.

(* ---------------------------------------------------------------- sub-matrices *)
Lemma nth_In_lt ps n k : (forall q, In q ps -> (q < n)%nat) -> (k < length ps)%nat -> (nth k ps O < n)%nat.
Proof. intros H Hk. apply H, nth_In, Hk. Qed.

Lemma submat_sym n ps M : symmetric n M -> (forall q, In q ps -> (q < n)%nat) -> symmetric (length ps) (submat ps M).
Proof. intros Hs Hq i j Hi Hj. unfold submat. apply Hs; apply nth_In_lt; assumption. Qed.

Lemma submat_posdef n ps M : posdef n M -> NoDup ps -> (forall q, In q ps -> (q < n)%nat) ->
  posdef (length ps) (submat ps M).
Proof.
  intros Hp Hnd Hq x [i [Hi Hx]].
  (* the vector with value x_k at index ps_k and zero elsewhere *)
  set (v := fun j => rsum (length ps) (fun k => if Nat.eqb (nth k ps O) j then x k else 0)).
  assert (Hv : forall k, (k < length ps)%nat -> v (nth k ps O) = x k).
  { intros k Hk. unfold v. rewrite <- (rsum_delta (length ps) x k Hk). apply rsum_ext. intros l Hl.
    destruct (Nat.eqb_spec (nth l ps O) (nth k ps O)) as [E|E], (Nat.eqb_spec l k) as [E'|E']; try reflexivity.
    - exfalso. apply E'. apply (proj1 (NoDup_nth ps O) Hnd); assumption.
    - exfalso. apply E. congruence. }
  assert (HS : forall f, rsum n (fun j => v j * f j) = rsum (length ps) (fun k => x k * f (nth k ps O))).
  { intros f. unfold v.
    transitivity (rsum n (fun j => rsum (length ps) (fun k => if Nat.eqb j (nth k ps O) then x k * f j else 0))).
    - apply rsum_ext; intros j Hj. rewrite <- rsum_scal_r. apply rsum_ext; intros k Hk.
      rewrite Nat.eqb_sym. destruct (Nat.eqb j (nth k ps O)); ring.
    - rewrite rsum_swap. apply rsum_ext; intros k Hk.
      rewrite (rsum_delta n (fun j => x k * f j)); [reflexivity|]. apply nth_In_lt; assumption. }
  assert (E : quad (length ps) (submat ps M) x = quad n M v).
  { unfold quad, submat.
    transitivity (rsum n (fun i => v i * rsum n (fun j => v j * M i j))).
    - rewrite HS. apply rsum_ext; intros a Ha. rewrite HS, <- rsum_scal. apply rsum_ext; intros; ring.
    - apply rsum_ext; intros a Ha. rewrite <- rsum_scal. apply rsum_ext; intros; ring. }
  rewrite E. apply Hp. exists (nth i ps O). split; [apply nth_In_lt; assumption|].
  rewrite Hv by exact Hi. exact Hx.
Qed.

Lemma perm_bound n ps : Permutation ps (seq 0 n) -> forall q, In q ps -> (q < n)%nat.
Proof. intros H q Hq. apply (Permutation_in _ H) in Hq. apply in_seq in Hq. lia. Qed.

Lemma submat_inverse n ps M N : Permutation ps (seq 0 n) -> is_inverse n M N ->
  is_inverse n (submat ps M) (submat ps N).
Proof.
  intros HP Hi i j Hli Hlj. unfold submat.
  pose proof (Permutation_length HP) as Hl. rewrite seq_length in Hl.
  assert (Hb : forall k, (k < n)%nat -> (nth k ps O < n)%nat).
  { intros k Hk. apply nth_In_lt; [apply perm_bound, HP|lia]. }
  assert (Hid : ident (nth i ps O) (nth j ps O) = ident i j).
  { unfold ident. destruct (Nat.eqb_spec (nth i ps O) (nth j ps O)) as [E|E], (Nat.eqb_spec i j) as [E'|E']; try reflexivity.
    - exfalso. apply E'. apply (proj1 (NoDup_nth ps O)); try lia.
      apply Permutation_NoDup with (seq 0 n); [symmetry; exact HP|apply seq_NoDup].
    - exfalso; congruence. }
  destruct (Hi (nth i ps O) (nth j ps O) (Hb i Hli) (Hb j Hlj)) as [H1 H2]. split.
  - rewrite (rsum_reindex n ps (fun k => M (nth i ps O) k * N k (nth j ps O))) by exact HP.
    rewrite H1. exact Hid.
  - rewrite (rsum_reindex n ps (fun k => N (nth i ps O) k * M k (nth j ps O))) by exact HP.
    rewrite H2. exact Hid.
Qed.

Lemma submat_quad n ps N x : Permutation ps (seq 0 n) -> quad n (submat ps N) (select ps x) = quad n N x.
Proof.
  intros HP. unfold quad, submat, select.
  rewrite <- (rsum_reindex n ps (fun i => rsum n (fun j => x i * N i j * x j))) by exact HP.
  apply rsum_ext; intros i Hi.
  apply (rsum_reindex n ps (fun j => x (nth i ps O) * N (nth i ps O) j * x j)). exact HP.
Qed.

(** kernel_density with parameters, for a positive definite matrix. *)
Lemma kernel_density_params d n M ps data w :
  symmetric n M -> posdef n M -> NoDup ps -> (forall q, In q ps -> (q < n)%nat) -> length w = length data ->
  let m := length ps in
  exists N W, minv m (submat ps M) = Some N /\ chol m N = Some W /\ symmetric m N
    /\ is_inverse m (submat ps M) N
    /\ rprod m (fun i => W i i) * sqrt (Rabs (mdet m (submat ps M))) = 1
    /\ kernel_density (mkKernel d n M) m m data (Some w) None (Some ps)
       = Ok (fun x => eval_numba m W (prof d) (combine data w) x
                      / (sqrt (Rabs (mdet m (submat ps M))) * dist_norm d m)).
Proof.
  intros Hs Hp Hnd Hq Hw m.
  destruct (kernel_density_plain d m (submat ps M) data (Some w)
              (submat_sym n ps M Hs Hq) (submat_posdef n ps M Hp Hnd Hq)) as [N [W [HN [HW [HsN [Hinv [Hd Hk]]]]]]].
  { intros w' E; injection E as <-; exact Hw. }
  exists N, W. repeat (split; [assumption|]).
  unfold kernel_density in *. cbn [k_ndim k_matrix k_dist bind fst snd] in *.
  assert (Hf : forallb (fun p => Nat.ltb p n) ps = true).
  { apply forallb_forall. intros q Hin. apply Nat.ltb_lt. apply Hq, Hin. }
  rewrite Hf. fold m. rewrite Nat.eqb_refl in *. cbn [bind fst snd negb] in *. exact Hk.
Qed.

(** C28: all parameters in another order. *)
Lemma density_params_perm d n M ps data w f g x :
  (1 <= n)%nat -> symmetric n M -> posdef n M -> Permutation ps (seq 0 n) -> length w = length data ->
  kernel_density (mkKernel d n M) n n data (Some w) None None = Ok f ->
  kernel_density (mkKernel d n M) n n (map (select ps) data) (Some w) None (Some ps) = Ok g ->
  g (select ps x) = f x.
Proof.
  intros Hn Hs Hp HP Hw Hf Hg.
  pose proof (Permutation_length HP) as Hl. rewrite seq_length in Hl.
  destruct (kernel_density_plain d n M data (Some w) Hs Hp) as [N [W [HN [HW [HsN [Hinv [Hd Hk]]]]]]].
  { intros w' E; injection E as <-; exact Hw. }
  rewrite Hf in Hk. injection Hk as ->.
  assert (Hnd : NoDup ps) by (apply Permutation_NoDup with (seq 0 n); [symmetry; exact HP|apply seq_NoDup]).
  destruct (kernel_density_params d n M ps (map (select ps) data) w Hs Hp Hnd (perm_bound n ps HP))
    as [N' [W' [HN' [HW' [HsN' [Hinv' [Hd' Hk']]]]]]].
  { rewrite map_length; exact Hw. }
  rewrite Hl in *. rewrite Hg in Hk'. injection Hk' as ->.
  rewrite (mdet_submat n ps M) by assumption.
  assert (E : eval_numba n W' (prof d) (combine (map (select ps) data) w) (select ps x)
            = eval_numba n W (prof d) (combine data w) x).
  { rewrite combine_map_l. unfold eval_numba. rewrite sumf_map. apply sumf_ext. intros dw _. cbn [fst snd].
    rewrite (white_dist2_quad n N' W'), (white_dist2_quad n N W) by assumption.
    f_equal. f_equal.
    pose proof (inverse_unique n _ N' (submat ps N) Hinv' (submat_inverse n ps M N HP Hinv)) as Hag.
    rewrite <- (submat_quad n ps N) by exact HP. apply quad_ext; [exact Hag|reflexivity]. }
  rewrite E. reflexivity.
Qed.

(* ---------------------------------------------------------------- Gaussian marginals *)
Definition shiftp (k : nat) (x : pt) : pt := fun i => x (k + i)%nat.
Definition block (k : nat) (W : mat) : mat := fun i j => W (k + i)%nat (k + j)%nat.

Lemma select_seq k m x : forall i, (i < m)%nat -> select (seq k m) x i = shiftp k x i.
Proof. intros i Hi. unfold select, shiftp. rewrite seq_nth by exact Hi. reflexivity. Qed.

(** The lower right block of the Cholesky factor of the inverse gives the inverse of the lower right
    block of the matrix. *)
Lemma block_inverse k m M N W : symmetric (k + m) M -> symmetric (k + m) N ->
  is_inverse (k + m) M N -> chol (k + m) N = Some W ->
  forall i j, (i < m)%nat -> (j < m)%nat ->
  rsum m (fun a => block k M i a * rsum m (fun r => block k W r a * block k W r j)) = ident i j.
Proof.
  intros HsM HsN Hinv HW. destruct (chol_sound _ _ _ HW) as [Hz Hpos _].
  set (n := (k + m)%nat) in *.
  (* V = M W^T *)
  set (V := fun i r => rsum n (fun a => M i a * W r a)).
  assert (HVW : forall i j, (i < n)%nat -> (j < n)%nat -> rsum n (fun r => V i r * W r j) = ident i j).
  { intros i j Hi Hj. destruct (Hinv i j Hi Hj) as [E _]. rewrite <- E. unfold V.
    transitivity (rsum n (fun r => rsum n (fun a => M i a * (W r a * W r j)))).
    - apply rsum_ext; intros r Hr. rewrite <- rsum_scal_r. apply rsum_ext; intros; ring.
    - rewrite rsum_swap. apply rsum_ext; intros a Ha. rewrite rsum_scal.
      rewrite (chol_full n N W a j HW HsN Ha Hj). reflexivity. }
  assert (HV0 : forall i r, (i < n)%nat -> (r < i)%nat -> V i r = 0).
  { intros i r Hi. induction r as [r IH] using lt_wf_ind. intros Hr.
    pose proof (HVW i r Hi ltac:(lia)) as E. rewrite ident_neq in E by lia.
    rewrite (rsum_trunc (S r) n) in E.
    - cbn [rsum] in E. rewrite rsum_zero_ext in E.
      + pose proof (Hpos r ltac:(lia)). nra.
      + intros q Hq. rewrite (IH q) by lia. ring.
    - lia.
    - intros q Hq. rewrite (Hz q r) by lia. ring. }
  intros i j Hi Hj.
  transitivity (rsum m (fun r => V (k + i)%nat (k + r)%nat * W (k + r)%nat (k + j)%nat)).
  - unfold block.
    transitivity (rsum m (fun r => rsum m (fun a => M (k + i)%nat (k + a)%nat * (W (k + r)%nat (k + a)%nat * W (k + r)%nat (k + j)%nat)))).
    + rewrite rsum_swap. apply rsum_ext; intros a Ha. rewrite rsum_scal. reflexivity.
    + apply rsum_ext; intros r Hr. unfold V, n. rewrite rsum_app.
      rewrite (rsum_zero_ext k).
      * rewrite Rplus_0_l, <- rsum_scal_r. apply rsum_ext; intros; ring.
      * intros a Ha. rewrite (Hz (k + r)%nat a) by lia. ring.
  - pose proof (HVW (k + i)%nat (k + j)%nat ltac:(lia) ltac:(lia)) as E.
    unfold n in E at 1. rewrite rsum_app, rsum_zero_ext in E.
    + rewrite Rplus_0_l in E. rewrite E. unfold ident.
      destruct (Nat.eqb_spec (k + i) (k + j)), (Nat.eqb_spec i j); try reflexivity; lia.
    + intros r Hr. rewrite HV0 by lia. ring.
Qed.

(** Sum of squares splits into the part that involves the first k coordinates and the block. *)
Lemma white_split k m W x a :
  (forall i j, (j < i)%nat -> W i j = 0) ->
  white_dist2 (k + m) W x a
  = rsum k (fun i => (mvec k W x i + (rsum m (fun j => W i (k + j)%nat * x (k + j)%nat) - mvec (k + m) W a i))
                   * (mvec k W x i + (rsum m (fun j => W i (k + j)%nat * x (k + j)%nat) - mvec (k + m) W a i)))
    + white_dist2 m (block k W) (shiftp k x) (shiftp k a).
Proof.
  intros Hz. unfold white_dist2. cbv zeta. rewrite rsum_app. f_equal.
  - apply rsum_ext; intros i Hi. unfold mvec. rewrite rsum_app. ring.
  - apply rsum_ext; intros i Hi. rewrite !rsum_app. unfold block, shiftp.
    rewrite (rsum_zero_ext k (fun l => W (k + i)%nat l * x l)) by (intros q Hq; rewrite Hz by lia; ring).
    rewrite (rsum_zero_ext k (fun l => W (k + i)%nat l * a l)) by (intros q Hq; rewrite Hz by lia; ring).
    rewrite !Rplus_0_l. reflexivity.
Qed.

Lemma gauss_inner k m W a base : 
  (forall i j, (j < i)%nat -> W i j = 0) -> (forall i, (i < k)%nat -> 0 < W i i) ->
  is_tintN k (fun x => exp (- white_dist2 (k + m) W x a / 2)) base
    (rprod k (fun i => sqrt (2 * PI) / W i i)
      * exp (- white_dist2 m (block k W) (shiftp k base) (shiftp k a) / 2)).
Proof.
  intros Hz Hp.
  set (r := white_dist2 m (block k W) (shiftp k base) (shiftp k a)).
  set (v := fun i => rsum m (fun j => W i (k + j)%nat * base (k + j)%nat) - mvec (k + m) W a i).
  pose proof (tintN_triangular (fun _ r => exp (- r / 2)) (fun _ => sqrt (2 * PI))
      (fun _ r u v => gauss_step r u v) k W 0 r v base Hz Hp) as H. cbv beta in H.
  apply tintN_ext_base with (2 := H). intros x Hx. f_equal.
  rewrite (white_split k m W x a Hz). f_equal. f_equal. rewrite Rplus_comm. f_equal.
  - apply rsum_ext; intros i Hi.
    assert (E : rsum m (fun j => W i (k + j)%nat * x (k + j)%nat) = rsum m (fun j => W i (k + j)%nat * base (k + j)%nat)).
    { apply rsum_ext; intros j Hj. rewrite Hx by lia. reflexivity. }
    unfold v. rewrite E. reflexivity.
  - unfold r, white_dist2. apply rsum_ext; intros i Hi. cbv zeta.
    assert (E : rsum m (fun l => block k W i l * shiftp k x l) = rsum m (fun l => block k W i l * shiftp k base l)).
    { apply rsum_ext; intros j Hj. unfold shiftp. rewrite Hx by lia. reflexivity. }
    rewrite E. reflexivity.
Qed.

(** Nesting of iterated integrals. *)
Lemma tintN_shift k m f h :
  (forall base, is_tintN k f base (h (shiftp k base))) ->
  forall base l, is_tintN m h (shiftp k base) l -> is_tintN (k + m) f base l.
Proof.
  intros Hf. induction m as [|m IH]; intros base l H.
  - rewrite Nat.add_0_r. cbn [is_tintN] in H. rewrite <- H. apply Hf.
  - rewrite Nat.add_succ_r. cbn [is_tintN] in *. destruct H as [g [H1 H2]]. exists g. split; [|exact H2].
    intros t. apply IH.
    replace (shiftp k (upd base (k + m) t)) with (upd (shiftp k base) m t); [apply H1|].
    extensionality i. unfold upd, shiftp.
    destruct (Nat.eqb_spec i m), (Nat.eqb_spec (k + i) (k + m)); try reflexivity; lia.
Qed.

Lemma seq_bound k m q : In q (seq k m) -> (q < k + m)%nat.
Proof. intros H. apply in_seq in H. lia. Qed.

Lemma gauss_marginal k m M data w f g base :
  (1 <= m)%nat -> symmetric (k + m) M -> posdef (k + m) M -> length w = length data ->
  kernel_density (mkKernel Gaussian (k + m) M) (k + m) (k + m) data (Some w) None None = Ok f ->
  kernel_density (mkKernel Gaussian (k + m) M) m m (map (select (seq k m)) data) (Some w) None (Some (seq k m)) = Ok g ->
  is_tintN k f base (g (select (seq k m) base)).
Proof.
  intros Hm Hs Hp Hw Hf Hg. set (n := (k + m)%nat) in *.
  destruct (kernel_density_plain Gaussian n M data (Some w) Hs Hp) as [N [W [HN [HW [HsN [Hinv [Hd Hk]]]]]]].
  { intros w' E; injection E as <-; exact Hw. }
  rewrite Hf in Hk. injection Hk as ->.
  destruct (kernel_density_params Gaussian n M (seq k m) (map (select (seq k m)) data) w Hs Hp
              (seq_NoDup _ _) (seq_bound k m)) as [N' [W' [HN' [HW' [HsN' [Hinv' [Hd' Hk']]]]]]].
  { rewrite map_length; exact Hw. }
  pose proof (submat_sym n (seq k m) M Hs (seq_bound k m)) as HsS.
  pose proof (submat_posdef n (seq k m) M Hp (seq_NoDup _ _) (seq_bound k m)) as HpS.
  rewrite !seq_length in *.
  rewrite Hg in Hk'. injection Hk' as ->.
  destruct (chol_sound _ _ _ HW) as [Hz Hpos _].
  assert (Hz' : forall i j, (j < i)%nat -> W i j = 0) by (intros; apply Hz; lia).
  (* the inverse of the submatrix is W2^T W2 *)
  assert (Hag : agree m N' (fun i j => rsum m (fun r => block k W r i * block k W r j))).
  { apply (inverse_unique m (submat (seq k m) M)); [exact Hinv'|].
    assert (E1 : forall i j, (i < m)%nat -> (j < m)%nat ->
       rsum m (fun a => submat (seq k m) M i a * rsum m (fun r => block k W r a * block k W r j)) = ident i j).
    { intros i j Hi Hj. rewrite <- (block_inverse k m M N W Hs HsN Hinv HW i j Hi Hj).
      apply rsum_ext; intros a Ha. unfold submat, block. rewrite !seq_nth by assumption. reflexivity. }
    intros i j Hi Hj. split; [apply E1; assumption|].
    transitivity (ident j i).
    - rewrite <- (E1 j i Hj Hi). apply rsum_ext; intros a Ha.
      rewrite (HsS a j) by assumption. rewrite Rmult_comm. f_equal. apply rsum_ext; intros; ring.
    - unfold ident. rewrite Nat.eqb_sym. reflexivity. }
  assert (Hquad : forall x, quad m N' x = rsum m (fun r => mvec m (block k W) x r * mvec m (block k W) x r)).
  { intros x. rewrite (quad_ext m N' _ x x Hag) by reflexivity. unfold quad, mvec.
    transitivity (rsum m (fun i => rsum m (fun j => rsum m (fun r => x i * (block k W r i * block k W r j) * x j)))).
    - apply rsum_ext; intros i Hi. apply rsum_ext; intros j Hj. rewrite rsum_scal_r, rsum_scal. reflexivity.
    - transitivity (rsum m (fun i => rsum m (fun r => rsum m (fun j => x i * (block k W r i * block k W r j) * x j)))).
      { apply rsum_ext; intros i Hi. apply rsum_swap. }
      rewrite rsum_swap. apply rsum_ext; intros r Hr. rewrite <- rsum_scal_r.
      apply rsum_ext; intros i Hi. rewrite <- rsum_scal. apply rsum_ext; intros; ring. }
  assert (Hdist : forall x a, white_dist2 m W' x a = white_dist2 m (block k W) x a).
  { intros x a. rewrite (white_dist2_quad m N' W') by assumption. rewrite Hquad.
    unfold white_dist2. apply rsum_ext; intros i Hi. cbv zeta. unfold mvec, psub.
    rewrite <- rsum_minus.
    rewrite (rsum_ext m (fun j => block k W i j * (x j - a j)) (fun j => block k W i j * x j - block k W i j * a j))
      by (intros; ring). reflexivity. }
  set (c1 := rprod k (fun i => sqrt (2 * PI) / W i i)).
  set (Z := sqrt (Rabs (mdet n M)) * dist_norm Gaussian n).
  set (Z' := sqrt (Rabs (mdet m (submat (seq k m) M))) * dist_norm Gaussian m).
  assert (HZ : 0 < Z) by (apply Rmult_lt_0_compat; [apply sqrt_mdet_pos; assumption|apply dist_norm_pos; unfold n; lia]).
  assert (HZ' : 0 < Z') by (apply Rmult_lt_0_compat; [apply sqrt_mdet_pos; assumption|apply dist_norm_pos; lia]).
  (* normalisations agree: compare the integrals of one kernel *)
  assert (Hnorm : c1 * Z' = Z).
  { pose proof (prof_quad_integral Gaussian n M N W (fun _ => 0) base ltac:(unfold n; lia) HsN HW
                  (sqrt_mdet_pos n M Hs Hp) Hd) as HI.
    pose proof (prof_quad_integral Gaussian m (submat (seq k m) M) N' W' (fun _ => 0) (shiftp k base) Hm HsN' HW'
                  (sqrt_mdet_pos m _ HsS HpS) Hd') as HI'.
    apply (tintN_unique n _ base _ _ ) with (2 := HI).
    apply (tintN_shift k m _ (fun y => c1 * prof Gaussian (white_dist2 m W' y (fun _ => 0)))).
    - intros b. pose proof (gauss_inner k m W (fun _ => 0) b Hz' ltac:(intros i Hi; apply Hpos; lia)) as HG.
      fold c1 in HG. cbn [prof]. rewrite Hdist. exact HG.
    - apply tintN_scal. exact HI'. }
  set (sb := select (seq k m) base).
  assert (Hw1 : forall a, white_dist2 m W' sb (select (seq k m) a)
                = white_dist2 m (block k W) (shiftp k base) (shiftp k a)).
  { intros a. rewrite Hdist. unfold white_dist2. apply rsum_ext; intros i Hi. cbv zeta.
    rewrite (rsum_ext m (fun l => block k W i l * sb l) (fun l => block k W i l * shiftp k base l))
      by (intros j Hj; unfold sb; rewrite select_seq by exact Hj; reflexivity).
    rewrite (rsum_ext m (fun l => block k W i l * select (seq k m) a l) (fun l => block k W i l * shiftp k a l))
      by (intros j Hj; rewrite select_seq by exact Hj; reflexivity).
    reflexivity. }
  assert (HS : is_tintN k (fun x => sumf (fun dw : pt * R => snd dw * exp (- white_dist2 n W x (fst dw) / 2)) (combine data w)) base
     (sumf (fun dw : pt * R => snd dw * (c1 * exp (- white_dist2 m (block k W) (shiftp k base) (shiftp k (fst dw)) / 2))) (combine data w))).
  { apply (tintN_sumf k (fun (dw : pt * R) x => snd dw * exp (- white_dist2 n W x (fst dw) / 2))
       (fun dw => snd dw * (c1 * exp (- white_dist2 m (block k W) (shiftp k base) (shiftp k (fst dw)) / 2)))).
    intros dw _. apply tintN_scal. apply gauss_inner; [exact Hz'|intros i Hi; apply Hpos; lia]. }
  apply (tintN_scal k (/ Z)) in HS.
  assert (Ev : / Z * sumf (fun dw : pt * R => snd dw * (c1 * exp (- white_dist2 m (block k W) (shiftp k base) (shiftp k (fst dw)) / 2))) (combine data w)
     = eval_numba m W' (prof Gaussian) (combine (map (select (seq k m)) data) w) sb / Z').
  { rewrite combine_map_l. unfold eval_numba. rewrite sumf_map. cbn [fst snd].
    rewrite (sumf_ext (fun x => prof Gaussian (white_dist2 m W' sb (select (seq k m) (fst x))) * snd x)
      (fun dw => / c1 * (snd dw * (c1 * exp (- white_dist2 m (block k W) (shiftp k base) (shiftp k (fst dw)) / 2))))).
    - rewrite sumf_scal. rewrite <- Hnorm. 
      assert (Hc1 : c1 <> 0). { intros E. rewrite E in Hnorm. lra. }
      field. split; lra.
    - intros dw _. rewrite Hw1. cbn [prof].
      assert (Hc1 : c1 <> 0). { intros E. rewrite E in Hnorm. lra. }
      field. exact Hc1. }
  rewrite Ev in HS. apply tintN_ext with (2 := HS). intros x. unfold Rdiv. rewrite Rmult_comm. f_equal.
  unfold eval_numba. apply sumf_ext; intros; cbn [prof]; apply Rmult_comm.
Qed.

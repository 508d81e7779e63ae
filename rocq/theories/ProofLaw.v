(** C128: the samples follow the density. *)
From Coquelicot Require Import Coquelicot.
From Coq Require Import Permutation FunctionalExtensionality.
From Verif Require Import Base ModelLinAlg SpecLinAlg ProofLinAlg SpecIntegral ProofIntegral
  ProofWallis ProofGauss ModelKernels SpecKernels ProofKernels ModelKDE SpecKDE ProofKDE ProofMarginal ProofMarginal2 ProofMultiReflect ProofTop ProofTop2 SpecMoments ProofMoments
  ModelResample SpecResample ProofResample SpecLaw.
Open Scope R_scope.
Notation length := List.length.

(* ---------------------------------------------------------------- determinant of the factor *)
Lemma rprod_shift m f : rprod (S m) f = f O * rprod m (fun k => f (S k)).
Proof. induction m as [|m IH]; [cbn; ring|]. change (rprod (S (S m)) f) with (rprod (S m) f * f (S m)). rewrite IH. cbn [rprod]. ring. Qed.

Lemma ldet_factor U : (forall i j, (j < i)%nat -> U i j = 0) -> forall m k A,
  (forall i, (k <= i < k + m)%nat -> 0 < U i i) ->
  (forall i j, (k <= i < k + m)%nat -> (k <= j < k + m)%nat -> A i j = sumf (fun l => U l i * U l j) (seq k m)) ->
  ldet (seq k m) A = rprod m (fun i => U (k + i)%nat (k + i)%nat) * rprod m (fun i => U (k + i)%nat (k + i)%nat).
Proof.
  intros Ht. induction m as [|m IH]; intros k A Hp HA; [cbn; ring|].
  assert (Hr : forall j, (k <= j < k + S m)%nat -> A k j = U k k * U k j /\ A j k = U k j * U k k).
  { intros j Hj. rewrite !HA by lia. cbn [seq]. rewrite !sumf_cons, !sumf_zero; [split; ring| |];
      intros l Hl; apply in_seq in Hl; rewrite (Ht l k) by lia; ring. }
  cbn [seq ldet]. rewrite (proj1 (Hr k ltac:(lia))). pose proof (Hp k ltac:(lia)) as Hk.
  rewrite (IH (S k) (schurx k A)).
  - rewrite !rprod_shift. rewrite Nat.add_0_r.
    rewrite (rprod_ext m (fun i => U (k + S i)%nat (k + S i)%nat) (fun i => U (S k + i)%nat (S k + i)%nat)); [ring|].
    intros i _. replace (k + S i)%nat with (S k + i)%nat by lia. reflexivity.
  - intros i Hi. apply Hp. lia.
  - intros i j Hi Hj. unfold schurx. rewrite (HA i j) by lia. rewrite (proj2 (Hr i ltac:(lia))), (proj1 (Hr j ltac:(lia))), (proj1 (Hr k ltac:(lia))).
    cbn [seq]. rewrite sumf_cons. field. lra.
Qed.

Lemma factor_det n M U : symmetric n M -> posdef n M -> is_factor n M U -> sqrt (Rabs (mdet n M)) = rprod n (fun i => U i i).
Proof.
  intros Hs Hp [Ht [HU HM]].
  assert (HP : 0 < rprod n (fun i => U i i)) by (apply rprod_pos; exact HU).
  assert (E : mdet n M = rprod n (fun i => U i i) * rprod n (fun i => U i i)).
  { rewrite <- (mdet_submat n (rev (seq 0 n)) M Hs Hp) by (symmetry; apply Permutation_rev).
    pose proof (mdet_ldet (rev (seq 0 n)) M) as H. rewrite rev_length, seq_length, rev_involutive in H. rewrite H.
    rewrite (ldet_factor U Ht n 0 M); [reflexivity| |].
    - intros i Hi. apply HU. lia.
    - intros i j Hi Hj. rewrite sumf_seq. symmetry. apply HM; lia. }
  rewrite E. rewrite Rabs_pos_eq by nra. apply sqrt_square. lra.
Qed.

(* ---------------------------------------------------------------- length of the noise *)
Lemma lower_inj n U (v : pt) : (forall i j, (j < i)%nat -> U i j = 0) -> (forall i, (i < n)%nat -> 0 < U i i) ->
  (forall i, (i < n)%nat -> rsum n (fun l => U l i * v l) = 0) -> forall i, (i < n)%nat -> v i = 0.
Proof.
  intros Ht Hp H i. induction i as [i IH] using (well_founded_induction lt_wf). intros Hi.
  pose proof (H i Hi) as E.
  rewrite (rsum_ext n _ (fun k => if Nat.eqb k i then U k i * v k else 0)) in E.
  - rewrite (rsum_delta n (fun k => U k i * v k)) in E by exact Hi. pose proof (Hp i Hi).
    apply Rmult_integral in E. destruct E; [lra|assumption].
  - intros k Hk. destruct (Nat.eqb_spec k i) as [->|]; [reflexivity|].
    destruct (lt_dec k i); [rewrite (IH k) by lia; ring|rewrite Ht by lia; ring].
Qed.

Lemma color_length n M N W U a z : symmetric n N -> is_inverse n M N -> chol n N = Some W -> is_factor n M U ->
  white_dist2 n W (padd a (color n U z)) a = norm2 n z.
Proof.
  intros Hs Hinv HW [Ht [HU HM]]. rewrite (white_dist2_quad n N W _ _ HW Hs).
  set (x := color n U z). set (y := mvec n N x).
  assert (Ex : forall i, (i < n)%nat -> mvec n M y i = x i).
  { intros i Hi. unfold y, mvec.
    rewrite (rsum_ext n _ (fun k => rsum n (fun j => M i k * N k j * x j))) by (intros; rewrite <- rsum_scal; apply rsum_ext; intros; ring).
    rewrite rsum_swap. rewrite (rsum_ext n _ (fun j => ident i j * x j)).
    - apply rsum_ident_l. exact Hi.
    - intros j Hj. rewrite rsum_scal_r. rewrite (proj1 (Hinv i j Hi Hj)). reflexivity. }
  assert (EM : forall i, (i < n)%nat -> mvec n M y i = color n U (mvec n U y) i).
  { intros i Hi. unfold mvec, color. transitivity (rsum n (fun k => rsum n (fun l => U l i * U l k * y k))).
    - apply rsum_ext. intros k Hk. rewrite <- (HM i k Hi Hk). rewrite <- rsum_scal_r. reflexivity.
    - rewrite rsum_swap. apply rsum_ext. intros l Hl. rewrite <- rsum_scal. apply rsum_ext. intros; ring. }
  assert (EU : forall l, (l < n)%nat -> mvec n U y l = z l).
  { intros l Hl. assert (H : mvec n U y l - z l = 0); [|lra].
    apply (lower_inj n U (fun l => mvec n U y l - z l) Ht HU); [|exact Hl]. intros i Hi.
    rewrite (rsum_ext n _ (fun l => U l i * mvec n U y l - U l i * z l)) by (intros; ring).
    rewrite rsum_minus. change (color n U (mvec n U y) i - x i = 0). rewrite <- EM, Ex by exact Hi. ring. }
  transitivity (quad n N x).
  { unfold quad, psub, padd. apply rsum_ext. intros i Hi. apply rsum_ext. intros j Hj. f_equal; [f_equal|]; unfold x; ring. }
  unfold quad. rewrite (rsum_ext n _ (fun i => x i * y i)).
  2:{ intros i Hi. unfold y, mvec. rewrite <- rsum_scal. apply rsum_ext. intros; ring. }
  unfold x, color. rewrite (rsum_ext n _ (fun i => rsum n (fun l => U l i * z l * y i))) by (intros; rewrite rsum_scal_r; reflexivity).
  rewrite rsum_swap. unfold norm2. apply rsum_ext. intros l Hl.
  rewrite (rsum_ext n _ (fun i => z l * (U l i * y i))) by (intros; ring). rewrite rsum_scal.
  change (z l * mvec n U y l = z l * z l). rewrite EU by exact Hl. reflexivity.
Qed.

(* ---------------------------------------------------------------- substitution *)
Lemma color_subst n U (a : pt) f : (forall i j, (j < i)%nat -> U i j = 0) -> (forall i, (i < n)%nat -> 0 < U i i) -> of_params n f ->
  forall m k (zb xb : pt) l, (k + m = n)%nat -> (forall i, (i < k)%nat -> xb i = a i + color n U zb i) ->
  is_tintL (seq k m) (fun z => f (padd a (color n U z))) zb l ->
  is_tintL (seq k m) f xb (l * rprod m (fun i => U (k + i)%nat (k + i)%nat)).
Proof.
  intros Ht HU Hf. induction m as [|m IH]; intros k zb xb l Hk Hb H.
  - cbn [seq is_tintL rprod] in *. rewrite Rmult_1_r, <- H. apply Hf. intros i Hi. rewrite Hb by lia. reflexivity.
  - cbn [seq is_tintL] in *. destruct H as [g [H1 H2]].
    set (u := U k k). assert (Hu : 0 < u) by (apply HU; lia).
    set (c := a k + color n U (upd zb k 0) k).
    assert (Hc : forall t, a k + color n U (upd zb k t) k = u * t + c).
    { intros t. unfold c, color.
      assert (E : rsum n (fun l0 => U l0 k * upd zb k t l0) - rsum n (fun l0 => U l0 k * upd zb k 0 l0) = u * t); [|lra].
      rewrite <- rsum_minus. rewrite (rsum_ext n _ (fun l0 => if Nat.eqb l0 k then U l0 k * t else 0)).
      - rewrite (rsum_delta n (fun l0 => U l0 k * t)) by lia. reflexivity.
      - intros j _. unfold upd. destruct (Nat.eqb j k); ring. }
    exists (fun s => g (/ u * s + - c / u) * rprod m (fun i => U (S k + i)%nat (S k + i)%nat)). split.
    + intros s. apply (IH (S k) (upd zb k (/ u * s + - c / u)) (upd xb k s)); [lia| |apply H1].
      intros i Hi. unfold upd at 1. destruct (Nat.eqb_spec i k) as [->|Hne].
      * rewrite Hc. field. lra.
      * rewrite Hb by lia. f_equal. unfold color. apply rsum_ext. intros j _. unfold upd.
        destruct (Nat.eqb_spec j k) as [->|]; [rewrite Ht by lia; ring|reflexivity].
    + rewrite rprod_shift, Nat.add_0_r. fold u.
      assert (Hiu : 0 < / u) by (apply Rinv_0_lt_compat; exact Hu).
      pose proof (tint_comp_lin g l (/ u) (- c / u) Hiu H2) as H3.
      apply (tint_scal (rprod m (fun i => U (S k + i)%nat (S k + i)%nat))) in H3.
      rewrite (rprod_ext m (fun i => U (k + S i)%nat (k + S i)%nat) (fun i => U (S k + i)%nat (S k + i)%nat)) by (intros; rewrite Nat.add_succ_r; reflexivity).
      match type of H3 with is_tint _ ?v => match goal with |- is_tint _ ?w => replace w with v by (field; lra) end end.
      apply tint_ext with (2 := H3). intros; ring.
Qed.

(* ---------------------------------------------------------------- the law *)
Definition draw (n : nat) (U : mat) (data : list pt) (k : nat) (z : pt) : pt := padd (nth k data pt0) (color n U z).

Lemma law n data ws d M K U base (g : pt -> R) means : (1 <= n)%nat -> built_kde n data ws d M None K -> is_factor n M U -> of_params n g ->
  (forall k, (k < length data)%nat -> is_tintL (seq 0 n) (fun z => g (draw n U data k z) * dist_evaluate d n z) base (means k)) ->
  exists f, kde_density K true n None PNone = Ok f
    /\ is_tintL (seq 0 n) (fun x => g x * f x) base (weighted ws means).
Proof.
  intros Hn HB HF Hg Hm. destruct (built_inv _ _ _ _ _ _ _ HB) as (En & Ed & Hne & Er & Ew & Hl & Hnn & Hp & Et & Ek & Hs & Hpd).
  destruct (kernel_density_plain d n M data (Some ws) Hs Hpd) as [N [W [HN [HW [HsN [Hinv [Hd Hk]]]]]]].
  { intros w' E; injection E as <-; exact Hl. }
  pose proof (sqrt_mdet_pos n M Hs Hpd) as Hsq. pose proof (dist_norm_pos d n Hn) as Hdn.
  rewrite (density_as_kernel _ _ _ _ _ _ _ true None HB). cbv zeta. rewrite Hk. cbn [bind].
  eexists. split; [reflexivity|].
  rewrite (factor_det n M U Hs Hpd HF) in *. set (P := rprod n (fun i => U i i)) in *.
  assert (HK : forall k, (k < length data)%nat ->
    is_tintL (seq 0 n) (fun x => g x * prof d (white_dist2 n W x (nth k data pt0)) / dist_norm d n) base (means k * P)).
  { intros k Hkl. pose proof HF as [Ht [HU HM]].
    apply (color_subst n U (nth k data pt0) (fun x => g x * prof d (white_dist2 n W x (nth k data pt0)) / dist_norm d n) Ht HU) with (zb := base) (k := O) (m := n); [| reflexivity | intros; lia |].
    - intros x y Hxy. rewrite (Hg x y Hxy). rewrite (white_dist2_ext n W x y (nth k data pt0) (nth k data pt0) Hxy ltac:(reflexivity)). reflexivity.
    - apply tintL_ext with (2 := Hm k Hkl). intros z. unfold draw. rewrite (color_length n M N W U _ z HsN Hinv HW HF). unfold dist_evaluate. unfold Rdiv. ring. }
  assert (H : is_tintL (seq 0 n) (fun x => sumf (fun k => nth k ws 0 * (g x * prof d (white_dist2 n W x (nth k data pt0)) / dist_norm d n)) (seq 0 (length data))) base
                (sumf (fun k => nth k ws 0 * (means k * P)) (seq 0 (length data)))).
  { apply (tintL_sumf nat (seq 0 n) (fun k x => nth k ws 0 * (g x * prof d (white_dist2 n W x (nth k data pt0)) / dist_norm d n)) (fun k => nth k ws 0 * (means k * P))).
    intros k Hkl. apply in_seq in Hkl. apply tintL_scal. apply HK. lia. }
  apply (tintL_scal _ (/ lsum ws / P)) in H.
  assert (HP : 0 < P) by exact Hsq.
  match type of H with is_tintL _ _ _ ?v => match goal with |- is_tintL _ _ _ ?w => replace w with v end end.
  - apply tintL_ext with (2 := H). intros x. rewrite scaled_val by exact Hp. unfold eval_numba, mass.
    rewrite (sumf_combine data ws (fun p w => prof d (white_dist2 n W x p) * w) Hl). rewrite sumf_seq.
    rewrite (rsum_ext _ (fun k => nth k ws 0 * _) (fun k => prof d (white_dist2 n W x (nth k data (fun _ => 0))) * nth k ws 0 * (g x / dist_norm d n))) by (intros; unfold pt0, Rdiv; ring).
    rewrite rsum_scal_r. field. lra.
  - rewrite sumf_seq. unfold weighted. rewrite Hl. rewrite (rsum_ws data ws Hl).
    rewrite (rsum_ext _ _ (fun k => nth k ws 0 * means k * P)) by (intros; ring). rewrite rsum_scal_r. field. lra.
Qed.

Lemma law_one n data ws d M K : (1 <= n)%nat -> built_kde n data ws d M None K ->
  exists f U, kde_density K true n None PNone = Ok f /\ is_factor n M U
  /\ (forall size chunk arg rn ix, clear_arg K arg -> valid_choice data ws (size_of data size) (ix O) ->
        exists ss, snd (kde_resample K size KeepNone chunk arg rn ix) = Ok ss /\ length ss = size_of data size
          /\ forall j i, (j < size_of data size)%nat -> nth j ss pt0 i = draw n U data (ix O j) (dist_sample d n (rn O j)) i)
  /\ forall g means base, of_params n g ->
       (forall k, (k < length data)%nat -> is_tintL (seq 0 n) (fun z => g (draw n U data k z) * dist_evaluate d n z) base (means k)) ->
       is_tintL (seq 0 n) (fun x => g x * f x) base (weighted ws means).
Proof.
  intros Hn HB. destruct (built_inv _ _ _ _ _ _ _ HB) as (En & Ed & Hne & Er & Ew & Hl & Hnn & Hp & Et & Ek & Hs & Hpd).
  destruct (chol_posdef n M Hs Hpd) as [U [HU HF]].
  assert (Z : forall k, (k < length data)%nat -> is_tintL (seq 0 n) (fun z => (fun _ => 0) (draw n U data k z) * dist_evaluate d n z) pt0 0).
  { intros k _. apply tintL_ext with (2 := tintL_zero (seq 0 n) pt0). intros; ring. }
  destruct (law n data ws d M K U pt0 (fun _ => 0) (fun _ => 0) Hn HB HF ltac:(intros x y _; reflexivity) Z) as [f [Hf _]].
  exists f, U. split; [exact Hf|]. split; [exact HF|]. split.
  - intros size chunk arg rn ix Ha Hc.
    rewrite (kde_resample_clear _ _ _ _ _ _ _ Ha), Ek, Ed, En. cbn [snd k_dist k_matrix]. fold (size_of data size).
    destruct (resample_clear_ok d n M U data (kd_weights K) KeepNone (size_of data size) (rn O) (ix O) HU) as [ss [E1 [E2 E3]]].
    { intros i Hi. destruct Hi. }
    { eapply choice_ok_built, HB. }
    exists ss. split; [exact E1|]. split; [exact E2|]. intros j i Hj. rewrite (E3 j Hj i). reflexivity.
  - intros g means base Hg Hm. destruct (law n data ws d M K U base g means Hn HB HF Hg Hm) as [f' [Hf' HI]].
    rewrite Hf in Hf'. injection Hf' as <-. exact HI.
Qed.

(* ---------------------------------------------------------------- Gaussian *)
Lemma gauss_noise n z : dist_evaluate Gaussian n z = std_normal n z.
Proof.
  unfold dist_evaluate, std_normal. cbn [prof]. rewrite dist_norm_gauss.
  replace (exp (- norm2 n z / 2)) with (exp (- (norm2 n z / 2))) by (f_equal; field). rewrite exp_norm2. symmetry.
  unfold ge2. apply rprod_div. intros _ _. apply Rgt_not_eq, sqrt_lt_R0. pose proof PI_RGT_0. lra.
Qed.

(** Products of functions of one coordinate each. *)
Definition fprod (f : nat -> R) (qs : list nat) : R := fold_right (fun q p => f q * p) 1 qs.
Lemma fprod_seq f m : forall k, fprod f (seq k m) = rprod m (fun i => f (k + i)%nat).
Proof.
  induction m as [|m IH]; intros k; [reflexivity|]. rewrite rprod_shift, Nat.add_0_r. cbn [seq fprod fold_right].
  fold (fprod f (seq (S k) m)). rewrite IH. f_equal. apply rprod_ext. intros i _. rewrite Nat.add_succ_r. reflexivity.
Qed.
Lemma tintL_fprod (a : nat -> R -> R) (l : nat -> R) qs : NoDup qs -> (forall q, In q qs -> is_tint (a q) (l q)) ->
  forall base, is_tintL qs (fun x => fprod (fun q => a q (x q)) qs) base (fprod l qs).
Proof.
  induction 1 as [|q qs Hq Hnd IH]; intros Ha base; [reflexivity|].
  cbn [is_tintL fprod fold_right]. fold (fprod l qs).
  exists (fun t => a q t * fprod l qs). split.
  - intros t. apply tintL_ext_on with (f := fun x => a q t * fprod (fun q => a q (x q)) qs).
    + intros x Hx. fold (fprod (fun q => a q (x q)) qs). rewrite (Hx q Hq), upd_same. reflexivity.
    + apply tintL_scal. apply IH. intros p Hp. apply Ha. right. exact Hp.
  - replace (l q * fprod l qs) with (fprod l qs * l q) by ring. apply tint_ext with (f := fun t => fprod l qs * a q t); [intros; ring|].
    apply tint_scal. apply Ha. left. reflexivity.
Qed.
Lemma tintL_rprod n (a : nat -> R -> R) (l : nat -> R) base : (forall q, (q < n)%nat -> is_tint (a q) (l q)) ->
  is_tintL (seq 0 n) (fun x => rprod n (fun q => a q (x q))) base (rprod n l).
Proof.
  intros Ha. pose proof (fprod_seq l n 0) as E. cbn [Nat.add] in E. change (fun i => l i) with l in E. rewrite <- E.
  apply tintL_ext with (f := fun x => fprod (fun q => a q (x q)) (seq 0 n)); [intros x; apply (fprod_seq (fun q => a q (x q)) n 0)|].
  apply tintL_fprod; [apply seq_NoDup|]. intros q Hq. apply in_seq in Hq. apply Ha. lia.
Qed.

Lemma sqrt_2pi : 0 < sqrt (2 * PI).
Proof. apply sqrt_lt_R0. pose proof PI_RGT_0. lra. Qed.
Definition n0 (t : R) : R := exp (- (t * t) / 2) / sqrt (2 * PI).
Lemma n0_0 : is_tint n0 1.
Proof. pose proof sqrt_2pi. pose proof (tint_scal (/ sqrt (2 * PI)) _ _ ge2_tint) as HI. replace (/ sqrt (2 * PI) * sqrt (2 * PI)) with 1 in HI by (field; lra).
  apply tint_ext with (2 := HI). intros t. unfold n0, ge2, Rdiv. ring. Qed.
Lemma n0_1 : is_tint (fun t => t * n0 t) 0.
Proof. pose proof sqrt_2pi. pose proof (tint_scal (/ sqrt (2 * PI)) _ _ gauss_odd) as HI. rewrite Rmult_0_r in HI.
  apply tint_ext with (2 := HI). intros t. unfold n0, Rdiv. ring. Qed.
Lemma n0_2 : is_tint (fun t => t * t * n0 t) 1.
Proof. pose proof sqrt_2pi. pose proof (tint_scal (/ sqrt (2 * PI)) _ _ gauss_sq) as HI. replace (/ sqrt (2 * PI) * sqrt (2 * PI)) with 1 in HI by (field; lra).
  apply tint_ext with (2 := HI). intros t. unfold n0, Rdiv. ring. Qed.

Lemma rprod_ones n : rprod n (fun _ => 1) = 1.
Proof. induction n; cbn; [reflexivity|]. rewrite IHn. ring. Qed.
Lemma normal_total n base : is_tintL (seq 0 n) (std_normal n) base 1.
Proof. rewrite <- (rprod_ones n). apply (tintL_rprod n (fun _ => n0) (fun _ => 1)). intros; apply n0_0. Qed.
Lemma rprod_pull n f (i : nat) (c : R) : (i < n)%nat -> rprod n (fun q => (if Nat.eqb q i then c else 1) * f q) = c * rprod n f.
Proof.
  intros Hi. rewrite rprod_mult. f_equal. induction n as [|n IH]; [lia|]. cbn [rprod].
  destruct (Nat.eqb_spec n i) as [->|Hne].
  - rewrite (rprod_ext i _ (fun _ => 1)); [rewrite rprod_ones; ring|]. intros k Hk. destruct (Nat.eqb_spec k i); [lia|reflexivity].
  - rewrite IH by lia. ring.
Qed.
Lemma normal_mean n i base : (i < n)%nat -> is_tintL (seq 0 n) (fun z => z i * std_normal n z) base 0.
Proof.
  intros Hi. pose proof (tintL_rprod n (fun q t => (if Nat.eqb q i then t else 1) * n0 t) (fun q => if Nat.eqb q i then 0 else 1) base) as H.
  rewrite (rprod_zero n (fun q => if Nat.eqb q i then 0 else 1) i Hi) in H by (rewrite Nat.eqb_refl; reflexivity).
  eapply tintL_ext; [|apply H].
  - intros z. cbv beta. rewrite (rprod_ext n _ (fun q => (if Nat.eqb q i then z i else 1) * n0 (z q))).
    + apply (rprod_pull n (fun q => n0 (z q)) i (z i) Hi).
    + intros k _. destruct (Nat.eqb_spec k i) as [->|]; reflexivity.
  - intros q _. destruct (Nat.eqb q i); [apply n0_1|]. apply tint_ext with (2 := n0_0). intros; ring.
Qed.
Lemma normal_cov n i j base : (i < n)%nat -> (j < n)%nat -> is_tintL (seq 0 n) (fun z => z i * z j * std_normal n z) base (ident i j).
Proof.
  intros Hi Hj. pose proof (tintL_rprod n (fun q t => (if Nat.eqb q i then t else 1) * ((if Nat.eqb q j then t else 1) * n0 t))
    (fun q => if Nat.eqb i j then 1 else if Nat.eqb q i then 0 else if Nat.eqb q j then 0 else 1) base) as H.
  assert (E : rprod n (fun q => if Nat.eqb i j then 1 else if Nat.eqb q i then 0 else if Nat.eqb q j then 0 else 1) = ident i j).
  { unfold ident. destruct (Nat.eqb i j); [apply rprod_ones|]. apply (rprod_zero n _ i Hi). rewrite Nat.eqb_refl. reflexivity. }
  rewrite E in H. eapply tintL_ext; [|apply H].
  - intros z. cbv beta. rewrite (rprod_ext n _ (fun q => (if Nat.eqb q i then z i else 1) * ((if Nat.eqb q j then z j else 1) * n0 (z q)))).
    + rewrite (rprod_pull n _ i (z i) Hi), (rprod_pull n (fun q => n0 (z q)) j (z j) Hj). unfold std_normal, n0. ring.
    + intros k _. destruct (Nat.eqb_spec k i) as [Ea|Ea], (Nat.eqb_spec k j) as [Eb|Eb]; subst; try reflexivity; rewrite Eb; reflexivity.
  - intros q _. destruct (Nat.eqb_spec i j) as [->|Hne].
    + destruct (Nat.eqb q j); [apply tint_ext with (2 := n0_2); intros; ring|apply tint_ext with (2 := n0_0); intros; ring].
    + destruct (Nat.eqb_spec q i) as [->|].
      * destruct (Nat.eqb_spec i j); [contradiction|]. apply tint_ext with (2 := n0_1); intros; ring.
      * destruct (Nat.eqb q j); [apply tint_ext with (2 := n0_1); intros; ring|apply tint_ext with (2 := n0_0); intros; ring].
Qed.

(** Sums over coordinates. *)
Lemma tintL_rsum qs m (f : nat -> pt -> R) v base : (forall k, (k < m)%nat -> is_tintL qs (f k) base (v k)) ->
  is_tintL qs (fun x => rsum m (fun k => f k x)) base (rsum m v).
Proof.
  induction m as [|m IH]; intros H; cbn [rsum]; [apply tintL_zero|].
  apply (tintL_plus qs (fun x => rsum m (fun k => f k x)) (f m)); [apply IH; intros; apply H; lia|apply H; lia].
Qed.

Lemma color_mean n U base i : is_tintL (seq 0 n) (fun z => color n U z i * std_normal n z) base 0.
Proof.
  rewrite <- (rsum_zero n). eapply tintL_ext; [|apply (tintL_rsum (seq 0 n) n (fun l z => U l i * (z l * std_normal n z)) (fun _ => 0))].
  - intros z. cbv beta. unfold color. rewrite <- rsum_scal_r. apply rsum_ext. intros; ring.
  - intros k Hk. rewrite <- (Rmult_0_r (U k i)). apply tintL_scal. apply normal_mean. exact Hk.
Qed.
Lemma color_cov n M U base i j : is_factor n M U -> (i < n)%nat -> (j < n)%nat ->
  is_tintL (seq 0 n) (fun z => color n U z i * color n U z j * std_normal n z) base (M i j).
Proof.
  intros [Ht [HU HM]] Hi Hj. rewrite <- (HM i j Hi Hj).
  rewrite (rsum_ext n _ (fun l => rsum n (fun p => U l i * U p j * ident l p))).
  - eapply tintL_ext; [|apply (tintL_rsum (seq 0 n) n (fun l z => rsum n (fun p => U l i * U p j * (z l * z p * std_normal n z))) (fun l => rsum n (fun p => U l i * U p j * ident l p)))].
    + intros z. cbv beta. unfold color. rewrite <- rsum_scal_r, <- rsum_scal_r. apply rsum_ext. intros l Hl.
      rewrite <- rsum_scal, <- rsum_scal_r. apply rsum_ext. intros; ring.
    + intros l Hl. apply (tintL_rsum (seq 0 n) n (fun p z => U l i * U p j * (z l * z p * std_normal n z))). intros p Hp. apply tintL_scal. apply normal_cov; assumption.
  - intros l Hl. rewrite (rsum_ext n _ (fun p => ident l p * (U l i * U p j))) by (intros; ring).
    rewrite (rsum_ident_l n (fun p => U l i * U p j)) by exact Hl. reflexivity.
Qed.

Theorem gaussian_samples n data ws M K : (1 <= n)%nat -> built_kde n data ws Gaussian M None K ->
  exists f (S : nat -> pt -> pt), kde_density K true n None PNone = Ok f
  /\ (forall size chunk arg rn ix, clear_arg K arg -> valid_choice data ws (size_of data size) (ix O) ->
        exists ss, snd (kde_resample K size KeepNone chunk arg rn ix) = Ok ss /\ length ss = size_of data size
          /\ forall j i, (j < size_of data size)%nat -> nth j ss pt0 i = S (ix O j) (r_norm (rn O j)) i)
  /\ (forall g means base, of_params n g ->
       (forall k, (k < length data)%nat -> is_tintL (seq 0 n) (fun z => g (S k z) * std_normal n z) base (means k)) ->
       is_tintL (seq 0 n) (fun x => g x * f x) base (weighted ws means))
  /\ (forall k base i, (i < n)%nat -> is_tintL (seq 0 n) (fun z => S k z i * std_normal n z) base (nth k data pt0 i))
  /\ (forall k base i j (m : pt), (i < n)%nat -> (j < n)%nat ->
        is_tintL (seq 0 n) (fun z => (S k z i - m i) * (S k z j - m j) * std_normal n z) base
          ((nth k data pt0 i - m i) * (nth k data pt0 j - m j) + M i j)).
Proof.
  intros Hn HB. destruct (law_one n data ws Gaussian M K Hn HB) as [f [U [Hf [HF [HS HL]]]]].
  exists f, (draw n U data). split; [exact Hf|]. split; [exact HS|]. split; [|split].
  - intros g means base Hg Hm. apply HL; [exact Hg|]. intros k Hk. apply tintL_ext with (2 := Hm k Hk). intros z. rewrite gauss_noise. reflexivity.
  - intros k base i Hi. pose proof (tintL_plus _ _ _ _ _ _ (tintL_scal _ (nth k data pt0 i) _ _ _ (normal_total n base)) (color_mean n U base i)) as H.
    rewrite Rmult_1_r, Rplus_0_r in H. apply tintL_ext with (2 := H). intros z. unfold draw, padd. ring.
  - intros k base i j m Hi Hj. set (a := nth k data pt0).
    pose proof (tintL_plus _ _ _ _ _ _ (tintL_plus _ _ _ _ _ _ (tintL_scal _ ((a i - m i) * (a j - m j)) _ _ _ (normal_total n base))
       (tintL_plus _ _ _ _ _ _ (tintL_scal _ (a j - m j) _ _ _ (color_mean n U base i)) (tintL_scal _ (a i - m i) _ _ _ (color_mean n U base j)))) (color_cov n M U base i j HF Hi Hj)) as H.
    match type of H with is_tintL _ _ _ ?v => match goal with |- is_tintL _ _ _ ?w => replace w with v by ring end end.
    apply tintL_ext with (2 := H). intros z. unfold draw, padd. fold a. ring.
Qed.

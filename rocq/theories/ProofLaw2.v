(** C128: the samples of the finite kernels, one parameter; parabola, several parameters. *)
From Coquelicot Require Import Coquelicot.
From Coq Require Import FunctionalExtensionality.
From Verif Require Import Base ModelLinAlg SpecLinAlg ProofLinAlg SpecIntegral ProofIntegral
  ProofWallis ModelKernels SpecKernels ProofKernels ModelKDE SpecKDE ProofKDE ProofMarginal2 ProofMultiReflect ProofTop ProofTop2 SpecMoments ProofMoments
  ModelExtrema ModelReflect ModelResample SpecResample ProofResample SpecNoise ProofNoise ProofNoise2 ProofNoise3 SpecLaw ProofLaw ProofExamples ProofTop3.
Open Scope R_scope.
Notation length := List.length.

Lemma finite_choice (P : nat -> R -> Prop) N : (forall k, (k < N)%nat -> exists m, P k m) -> exists f, forall k, (k < N)%nat -> P k (f k).
Proof.
  induction N as [|N IH]; intros H; [exists (fun _ => 0); intros; lia|].
  destruct IH as [f Hf]; [intros; apply H; lia|]. destruct (H N ltac:(lia)) as [m Hm].
  exists (fun k => if Nat.eqb k N then m else f k). intros k Hk. destruct (Nat.eqb_spec k N) as [->|]; [exact Hm|apply Hf; lia].
Qed.

Lemma tintL_one F base l : (forall x y : pt, x O = y O -> F x = F y) -> is_tint (fun t => F (pt1 t)) l -> is_tintL (seq 0 1) F base l.
Proof.
  intros HF H. cbn [seq is_tintL]. exists (fun t => F (pt1 t)). split; [|exact H]. intros t. apply HF. rewrite upd_same. reflexivity.
Qed.
Lemma tintL_one_inv F base l : (forall x y : pt, x O = y O -> F x = F y) -> is_tintL (seq 0 1) F base l -> is_tint (fun t => F (pt1 t)) l.
Proof.
  intros HF H. cbn [seq is_tintL] in H. destruct H as [g [H1 H2]]. apply tint_ext with (2 := H2). intros t. rewrite <- H1. apply HF.
  rewrite upd_same. reflexivity.
Qed.

Lemma eval1_local d (x y : pt) : x O = y O -> dist_evaluate d 1 x = dist_evaluate d 1 y.
Proof. intros H. unfold dist_evaluate, norm2. cbn [rsum]. rewrite H. reflexivity. Qed.

Lemma factor_one M U : is_factor 1 M U -> 0 < U O O /\ U O O = sqrt (M O O).
Proof.
  intros [_ [HU HM]]. specialize (HU O ltac:(lia)). specialize (HM O O ltac:(lia) ltac:(lia)). cbn [rsum] in HM.
  split; [exact HU|]. rewrite <- HM, Rplus_0_l. symmetry. apply sqrt_square. lra.
Qed.
Lemma factor_first n M U : (1 <= n)%nat -> is_factor n M U -> 0 < U O O /\ U O O * U O O = M O O.
Proof.
  intros Hn [Ht [HU HM]]. split; [apply HU; lia|]. rewrite <- (HM O O) by lia.
  rewrite (rsum_ext n _ (fun l => if Nat.eqb l O then U l O * U l O else 0)); [rewrite (rsum_delta n (fun l => U l O * U l O)) by lia; reflexivity|].
  intros l _. destruct (Nat.eqb_spec l O) as [->|]; [reflexivity|]. rewrite Ht by lia. ring.
Qed.
Lemma draw_first n U data k z : (1 <= n)%nat -> (forall i j, (j < i)%nat -> U i j = 0) -> draw n U data k z O = nth k data pt0 O + U O O * z O.
Proof.
  intros Hn Ht. unfold draw, padd, color. f_equal.
  rewrite (rsum_ext n _ (fun l => if Nat.eqb l O then U l O * z l else 0)); [rewrite (rsum_delta n (fun l => U l O * z l)) by lia; reflexivity|].
  intros l _. destruct (Nat.eqb_spec l O) as [->|]; [reflexivity|]. rewrite Ht by lia. ring.
Qed.

(** One parameter: the samples, and the integral against the density from the integrals against the noise. *)
Lemma line_law data ws d M K : built_kde 1 data ws d M None K ->
  exists f s, kde_density K true 1 None PNone = Ok f /\ 0 < s /\ s = sqrt (M O O)
  /\ (forall size chunk arg rn ix, clear_arg K arg -> valid_choice data ws (size_of data size) (ix O) ->
        exists ss, snd (kde_resample K size KeepNone chunk arg rn ix) = Ok ss /\ length ss = size_of data size
          /\ forall j, (j < size_of data size)%nat -> nth j ss pt0 O = nth (ix O j) data pt0 O + s * dist_sample d 1 (rn O j) O)
  /\ forall (g : R -> R) means,
       (forall k, (k < length data)%nat -> is_tint (fun t => g (nth k data pt0 O + s * t) * dist_evaluate d 1 (fun _ => t)) (means k)) ->
       is_tint (fun t => g t * f (pt1 t)) (weighted ws means).
Proof.
  intros HB. destruct (law_one 1 data ws d M K ltac:(lia) HB) as [f [U [Hf [HF [HS HL]]]]].
  destruct (factor_one M U HF) as [Hs1 Hs2]. pose proof HF as [Ht _].
  exists f, (U O O). split; [exact Hf|]. split; [exact Hs1|]. split; [exact Hs2|]. split.
  - intros size chunk arg rn ix Ha Hc. destruct (HS size chunk arg rn ix Ha Hc) as [ss [E1 [E2 E3]]]. exists ss.
    split; [exact E1|]. split; [exact E2|]. intros j Hj. rewrite (E3 j O Hj). apply draw_first; [lia|exact Ht].
  - intros g means Hm. pose proof (HL (fun x => g (x O)) means pt0) as H.
    assert (H0 : is_tintL (seq 0 1) (fun x => g (x O) * f x) pt0 (weighted ws means)).
    { apply H.
      - intros x y Hxy. rewrite (Hxy O) by lia. reflexivity.
      - intros k Hk. apply tintL_one.
        + intros x y Hxy. rewrite !draw_first by (try lia; exact Ht). rewrite Hxy, (eval1_local d x y Hxy). reflexivity.
        + apply tint_ext with (2 := Hm k Hk). intros t. rewrite draw_first by (try lia; exact Ht). reflexivity. }
    cbn [seq is_tintL] in H0. destruct H0 as [h [H1 H2]]. apply tint_ext with (2 := H2). intros t.
    assert (E : upd pt0 O t O = t) by (unfold upd; reflexivity). rewrite <- (H1 t), E. apply (f_equal (fun v => g t * v)).
    destruct (built_inv _ _ _ _ _ _ _ HB) as (En & Ed & Hne & Er & Ew & Hl & Hnn & Hp & Et & Ek & Hs & Hpd).
    clear H H1. rewrite (density_as_kernel _ _ _ _ _ _ _ true None HB) in Hf. cbv zeta in Hf.
    destruct (kernel_density_plain d 1 M data (Some ws) Hs Hpd) as [N [W [HN [HW [HsN [Hinv [Hd Hk]]]]]]].
    { intros w' E'; injection E' as <-; exact Hl. }
    rewrite Hk in Hf. cbn [bind] in Hf. apply (f_equal (fun r => match r with Ok h => h | Err _ => f end)) in Hf. cbv beta iota in Hf. subst f. rewrite !scaled_val by exact Hp. unfold eval_numba.
    apply (f_equal (fun v => mass true ws / lsum ws * (v / (sqrt (Rabs (mdet 1 M)) * dist_norm d 1)))). apply sumf_ext. intros dw _. apply (f_equal (fun v => prof d v * snd dw)). apply white_dist2_ext; [|reflexivity]. intros i Hi.
    replace i with O by lia. unfold pt1. symmetry. exact E.
Qed.

Lemma cont_shift (g : R -> R) a s : (forall x, continuous g x) -> forall x, continuous (fun t => g (a + s * t)) x.
Proof.
  intros Hg x. apply (continuous_comp (fun t => a + s * t) g); [|apply Hg].
  apply (continuous_plus (fun _ => a) (fun t => s * t)); [apply continuous_const|]. apply (continuous_mult (fun _ => s) (fun t => t)); [apply continuous_const|apply continuous_id].
Qed.

(** How the kernels draw their noise, one parameter. *)
Theorem box_samples data ws M K : built_kde 1 data ws Box M None K ->
  exists f (S : nat -> rnd -> R), kde_density K true 1 None PNone = Ok f
  /\ (forall size chunk arg rn ix, clear_arg K arg -> valid_choice data ws (size_of data size) (ix O) ->
        exists ss, snd (kde_resample K size KeepNone chunk arg rn ix) = Ok ss /\ length ss = size_of data size
          /\ forall j, (j < size_of data size)%nat -> nth j ss pt0 O = S (ix O j) (rn O j))
  /\ forall (g : R -> R) r, (forall x, continuous g x) ->
       exists means, (forall k, (k < length data)%nat -> uniform_mean 1 (-1) 1 (fun u => g (S k (with_sym r 0 u))) (means k))
         /\ is_tint (fun t => g t * f (pt1 t)) (weighted ws means).
Proof.
  intros HB. destruct (line_law data ws Box M K HB) as [f [s [Hf [Hs [_ [HS HL]]]]]].
  exists f, (fun k r => nth k data pt0 O + s * dist_sample Box 1 r O). split; [exact Hf|]. split; [exact HS|].
  intros g r Hg.
  destruct (finite_choice (fun k m => uniform_mean 1 (-1) 1 (fun u => g (nth k data pt0 O + s * dist_sample Box 1 (with_sym r 0 u) O)) m
     /\ is_tint (fun t => g (nth k data pt0 O + s * t) * dist_evaluate Box 1 (fun _ => t)) m) (length data)) as [means Hm].
  { intros k _. destruct (box_law r (fun t => g (nth k data pt0 O + s * t)) (cont_shift g _ s Hg)) as [m [H1 H2]]. exists m. split; assumption. }
  exists means. split; [intros k Hk; apply (Hm k Hk)|]. apply HL. intros k Hk. apply (Hm k Hk).
Qed.

Theorem parabola_samples data ws M K : built_kde 1 data ws Parabola M None K ->
  exists f (S : nat -> rnd -> R), kde_density K true 1 None PNone = Ok f
  /\ (forall size chunk arg rn ix, clear_arg K arg -> valid_choice data ws (size_of data size) (ix O) ->
        exists ss, snd (kde_resample K size KeepNone chunk arg rn ix) = Ok ss /\ length ss = size_of data size
          /\ forall j, (j < size_of data size)%nat -> nth j ss pt0 O = S (ix O j) (rn O j))
  /\ forall (g : R -> R) r, (forall x, continuous g x) ->
       exists means, (forall k, (k < length data)%nat -> uniform_mean 3 (-1) 1 (fun u => g (S k (with_sym r 0 u))) (means k))
         /\ is_tint (fun t => g t * f (pt1 t)) (weighted ws means).
Proof.
  intros HB. destruct (line_law data ws Parabola M K HB) as [f [s [Hf [Hs [_ [HS HL]]]]]].
  exists f, (fun k r => nth k data pt0 O + s * dist_sample Parabola 1 r O). split; [exact Hf|]. split; [exact HS|].
  intros g r Hg.
  destruct (finite_choice (fun k m => uniform_mean 3 (-1) 1 (fun u => g (nth k data pt0 O + s * dist_sample Parabola 1 (with_sym r 0 u) O)) m
     /\ is_tint (fun t => g (nth k data pt0 O + s * t) * dist_evaluate Parabola 1 (fun _ => t)) m) (length data)) as [means Hm].
  { intros k _. destruct (parabola_law 1 0 r (fun t => g (nth k data pt0 O + s * t)) (cont_shift g _ s Hg)) as [m [H1 H2]]. exists m. split; assumption. }
  exists means. split; [intros k Hk; apply (Hm k Hk)|]. apply HL. intros k Hk. apply (Hm k Hk).
Qed.

Lemma weighted_minus ws a b : weighted ws a - weighted ws b = weighted ws (fun k => a k - b k).
Proof. unfold weighted. rewrite (rsum_ext _ (fun k => nth k ws 0 * (a k - b k)) (fun k => nth k ws 0 * a k - nth k ws 0 * b k)) by (intros; ring). rewrite rsum_minus. unfold Rdiv. ring. Qed.
Lemma weighted_bound ws v B : (forall w, In w ws -> 0 <= w) -> 0 < lsum ws -> (forall k, (k < length ws)%nat -> Rabs (v k) <= B) -> Rabs (weighted ws v) <= B.
Proof.
  intros Hnn Hp Hv. unfold weighted. rewrite rsum_lsum_id.
  assert (H : forall k, (k < length ws)%nat -> 0 <= nth k ws 0) by (intros; apply Hnn, nth_In; assumption).
  assert (H1 : rsum (length ws) (fun k => nth k ws 0 * v k) <= rsum (length ws) (fun k => nth k ws 0 * B)).
  { apply rsum_le. intros k Hk. apply Rmult_le_compat_l; [apply H, Hk|]. pose proof (Hv k Hk) as Ha. apply Rabs_le_between in Ha. lra. }
  assert (H2 : rsum (length ws) (fun k => nth k ws 0 * - B) <= rsum (length ws) (fun k => nth k ws 0 * v k)).
  { apply rsum_le. intros k Hk. apply Rmult_le_compat_l; [apply H, Hk|]. pose proof (Hv k Hk) as Ha. apply Rabs_le_between in Ha. lra. }
  rewrite rsum_scal_r, rsum_lsum_id in H1, H2. apply Rabs_le. split.
  - apply Rmult_le_reg_r with (lsum ws); [exact Hp|]. unfold Rdiv. rewrite Rmult_assoc, Rinv_l by lra. lra.
  - apply Rmult_le_reg_r with (lsum ws); [exact Hp|]. unfold Rdiv. rewrite Rmult_assoc, Rinv_l by lra. lra.
Qed.

Theorem triweight_samples data ws M K : built_kde 1 data ws Triweight M None K ->
  exists f (S : nat -> rnd -> R), kde_density K true 1 None PNone = Ok f
  /\ (forall size chunk arg rn ix, clear_arg K arg -> valid_choice data ws (size_of data size) (ix O) ->
        exists ss, snd (kde_resample K size KeepNone chunk arg rn ix) = Ok ss /\ length ss = size_of data size
          /\ forall j, (j < size_of data size)%nat -> nth j ss pt0 O = S (ix O j) (rn O j))
  /\ forall (g : R -> R) L r, (forall x, continuous g x) -> (forall x y, Rabs (g x - g y) <= L * Rabs (x - y)) -> r_norm r O <> 0 ->
       exists a b m, (forall k, (k < length data)%nat -> uniform_mean 1 0 1 (fun u => g (S k (with_unif r u))) (a k)
           /\ uniform_mean 1 0 1 (fun u => g (S k (with_unif (flipped r) u))) (b k))
         /\ is_tint (fun t => g t * f (pt1 t)) m /\ Rabs (weighted ws (fun k => (a k + b k) / 2) - m) <= sqrt (M O O) * L / 999.
Proof.
  intros HB. destruct (line_law data ws Triweight M K HB) as [f [s [Hf [Hs [Es [HS HL]]]]]].
  exists f, (fun k r => nth k data pt0 O + s * dist_sample Triweight 1 r O). split; [exact Hf|]. split; [exact HS|].
  intros g L r Hg Hlip Hr.
  set (P := fun k a b m => uniform_mean 1 0 1 (fun u => g (nth k data pt0 O + s * dist_sample Triweight 1 (with_unif r u) O)) a
     /\ uniform_mean 1 0 1 (fun u => g (nth k data pt0 O + s * dist_sample Triweight 1 (with_unif (flipped r) u) O)) b
     /\ is_tint (fun t => g (nth k data pt0 O + s * t) * dist_evaluate Triweight 1 (fun _ => t)) m /\ Rabs ((a + b) / 2 - m) <= s * L / 999).
  assert (HP : forall k, exists a b m, P k a b m).
  { intros k. apply (triweight_law r (fun t => g (nth k data pt0 O + s * t)) (s * L) (cont_shift g _ s Hg)); [|exact Hr].
    intros x y _ _. eapply Rle_trans; [apply Hlip|]. replace (nth k data pt0 O + s * x - (nth k data pt0 O + s * y)) with (s * (x - y)) by ring.
    rewrite Rabs_mult, (Rabs_pos_eq s) by lra. apply Req_le. ring. }
  destruct (finite_choice (fun k a => exists b m, P k a b m) (length data)) as [a Ha]; [intros; apply HP|].
  destruct (finite_choice (fun k b => exists m, P k (a k) b m) (length data)) as [b Hb]; [intros k Hk; apply (Ha k Hk)|].
  destruct (finite_choice (fun k m => P k (a k) (b k) m) (length data)) as [m Hm]; [intros k Hk; apply (Hb k Hk)|].
  exists a, b, (weighted ws m). split; [intros k Hk; split; apply (Hm k Hk)|]. split.
  - apply HL. intros k Hk. apply (Hm k Hk).
  - rewrite weighted_minus. destruct (built_inv _ _ _ _ _ _ _ HB) as (En & Ed & Hne & Er & Ew & Hl & Hnn & Hp & Et & Ek & HsM & Hpd).
    apply weighted_bound; [exact Hnn|exact Hp|]. intros k Hk. rewrite Hl in Hk. rewrite <- Es. apply (Hm k Hk).
Qed.

(** Square of the distance of a parabola sample from a point. *)
Lemma parabola_second n r a s c : uniform_mean 3 (-1) 1 (fun u => (a + s * dist_sample Parabola n (with_sym r 0 u) O - c) * (a + s * dist_sample Parabola n (with_sym r 0 u) O - c))
  ((a - c) * (a - c) + s * s / 5).
Proof.
  destruct (parabola_law n 0 r (fun t => (a + s * t - c) * (a + s * t - c))) as [m [H1 H2]].
  { intros x. cont. }
  replace ((a - c) * (a - c) + s * s / 5) with m; [exact H1|]. apply (tint_unique _ _ _ H2).
  assert (T : forall F l, is_tintN 1 F pt0 l -> (forall x y : pt, x O = y O -> F x = F y) -> is_tint (fun t => F (fun _ => t)) l).
  { intros F l [g [Hg HI]] HF. apply tint_ext with (2 := HI). intros t. rewrite <- Hg. apply HF. apply upd_same. }
  pose proof (T _ _ (dist_evaluate_integral Parabola 1 pt0 ltac:(lia)) (eval1_local Parabola)) as K0.
  destruct (evaluate_moments Parabola 1 pt0 0 0 ltac:(lia) ltac:(lia)) as [E1 E2]. cbn [Nat.eqb] in E2.
  pose proof (T _ _ E1) as K1. specialize (K1 ltac:(intros x y Hxy; cbv beta; rewrite Hxy, (eval1_local Parabola x y Hxy); reflexivity)).
  pose proof (T _ _ E2) as K2. specialize (K2 ltac:(intros x y Hxy; cbv beta; rewrite Hxy, (eval1_local Parabola x y Hxy); reflexivity)).
  pose proof (tint_plus _ _ _ _ (tint_scal ((a - c) * (a - c)) _ _ K0) (tint_plus _ _ _ _ (tint_scal (2 * s * (a - c)) _ _ K1) (tint_scal (s * s) _ _ K2))) as HI.
  match type of HI with is_tint _ ?v => match goal with |- is_tint _ ?w => replace w with v end end.
  - apply tint_ext with (2 := HI). intros t. ring.
  - unfold kernel_var. cbn [INR]. field.
Qed.

Lemma weighted_plus ws a c : 0 < lsum ws -> weighted ws (fun k => a k + c) = weighted ws a + c.
Proof.
  intros Hp. unfold weighted. rewrite rsum_lsum_id. rewrite (rsum_ext _ _ (fun k => nth k ws 0 * a k + nth k ws 0 * c)) by (intros; ring).
  rewrite rsum_plus, rsum_scal_r, rsum_lsum_id. field. lra.
Qed.

Theorem parabola_samples_several n data ws M K : (2 <= n)%nat -> built_kde n data ws Parabola M None K ->
  exists f (S : nat -> rnd -> R), kde_density K true n None PNone = Ok f
  /\ (forall size chunk arg rn ix, clear_arg K arg -> valid_choice data ws (size_of data size) (ix O) ->
        exists ss, snd (kde_resample K size KeepNone chunk arg rn ix) = Ok ss /\ length ss = size_of data size
          /\ forall j, (j < size_of data size)%nat -> nth j ss pt0 O = S (ix O j) (rn O j))
  /\ (forall c r k, uniform_mean 3 (-1) 1 (fun u => (S k (with_sym r 0 u) - c) * (S k (with_sym r 0 u) - c)) ((nth k data pt0 O - c) * (nth k data pt0 O - c) + M O O / 5))
  /\ (forall c base, is_tintN n (fun x => (x O - c) * (x O - c) * f x) base (weighted ws (fun k => (nth k data pt0 O - c) * (nth k data pt0 O - c) + M O O / (INR n + 4))))
  /\ forall v, weighted ws (fun k => v k + M O O / (INR n + 4)) < weighted ws (fun k => v k + M O O / 5).
Proof.
  intros Hn HB. destruct (law_one n data ws Parabola M K ltac:(lia) HB) as [f [U [Hf [HF [HS HL]]]]].
  destruct (factor_first n M U ltac:(lia) HF) as [Hs1 Hs2]. pose proof HF as [Ht _].
  destruct (built_inv _ _ _ _ _ _ _ HB) as (En & Ed & Hne & Er & Ew & Hl & Hnn & Hp & Et & Ek & HsM & Hpd).
  exists f, (fun k r => nth k data pt0 O + U O O * dist_sample Parabola n r O). split; [exact Hf|]. split; [|split; [|split]].
  - intros size chunk arg rn ix Ha Hc. destruct (HS size chunk arg rn ix Ha Hc) as [ss [E1 [E2 E3]]]. exists ss.
    split; [exact E1|]. split; [exact E2|]. intros j Hj. rewrite (E3 j O Hj). apply draw_first; [lia|exact Ht].
  - intros c r k. rewrite <- Hs2. apply parabola_second.
  - intros c base.
    destruct (density_second n data ws Parabola M K true base 0 0 (fun _ => c) ltac:(lia) ltac:(lia) HB) as [f' [Hf' HI]].
    rewrite Hf in Hf'. injection Hf' as <-. unfold mass in HI. rewrite Rmult_1_l in HI. rewrite weighted_plus by exact Hp.
    match type of HI with is_tintN _ _ _ ?v => match goal with |- is_tintN _ _ _ ?w => replace w with v; [exact HI|] end end.
    unfold weighted, data_cov. rewrite Hl, (rsum_ws data ws Hl). unfold kernel_var, pt0, Rdiv. ring.
  - intros v. rewrite !weighted_plus by exact Hp. apply Rplus_lt_compat_l. apply le_INR in Hn. cbn [INR] in Hn. unfold Rdiv. apply Rmult_lt_compat_l; [rewrite <- Hs2; nra|].
    apply Rinv_lt_contravar; nra.
Qed.

Theorem several_samples_refuted : exists n data ws M K f (S : nat -> rnd -> R) v means, built_kde n data ws Parabola M None K
  /\ kde_density K true n None PNone = Ok f
  /\ (forall size chunk arg rn ix, clear_arg K arg -> valid_choice data ws (size_of data size) (ix O) ->
        exists ss, snd (kde_resample K size KeepNone chunk arg rn ix) = Ok ss /\ length ss = size_of data size
          /\ forall j, (j < size_of data size)%nat -> nth j ss pt0 O = S (ix O j) (rn O j))
  /\ (forall k r, uniform_mean 3 (-1) 1 (fun u => (S k (with_sym r 0 u) - 0) * (S k (with_sym r 0 u) - 0)) (means k))
  /\ (forall base, is_tintN n (fun x => (x O - 0) * (x O - 0) * f x) base v) /\ v <> weighted ws means.
Proof.
  destruct (data2_built Parabola None) as [K [M [N [_ [HB _]]]]].
  destruct (parabola_samples_several 2 data2 [1; 1; 1] M K ltac:(lia) HB) as [f [S [H1 [H2 [H3 [H4 H5]]]]]].
  exists 2%nat, data2, [1; 1; 1], M, K, f, S. do 2 eexists. split; [exact HB|]. split; [exact H1|]. split; [exact H2|]. split; [intros k r; apply (H3 0 r k)|].
  split; [intros base; apply (H4 0 base)|]. pose proof (H5 (fun k => (nth k data2 pt0 O - 0) * (nth k data2 pt0 O - 0))). cbv beta in *. lra.
Qed.

Lemma law_example : exists K M, built_kde 2 data2 [1; 1; 1] Gaussian M None K /\ clear_arg K RNone /\ valid_choice data2 [1; 1; 1] (size_of data2 (Some 5%nat)) (fun j => Nat.modulo j 3)
  /\ of_params 2 (fun x => x 0%nat * x 1%nat) /\ ~ of_params 2 (fun x => x 2%nat) /\ weighted [1; 3] (fun k => INR k) = 3 / 4.
Proof.
  destruct (data2_built Gaussian None) as [K [M [N [_ [HB _]]]]]. exists K, M. split; [exact HB|]. split; [|split; [|split; [|split]]].
  - right. split; [reflexivity|]. apply (built_inv _ _ _ _ _ _ _ HB).
  - intros j Hj. assert (H : (Nat.modulo j 3 < 3)%nat) by (apply Nat.mod_upper_bound; lia). split; [exact H|].
    destruct (Nat.modulo j 3) as [|[|[|]]]; cbn; lra || lia.
  - intros x y H. rewrite !H by lia. reflexivity.
  - intros H. specialize (H (fun _ => 0) (fun k => if Nat.eqb k 2 then 1 else 0)). cbv beta in H. cbn in H.
    assert (E : 0 = 1); [|lra]. apply H. intros k Hk. destruct k as [|[|k]]; [reflexivity|reflexivity|lia].
  - unfold weighted. cbn [length rsum nth INR]. field.
Qed.

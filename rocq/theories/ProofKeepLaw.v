(** C133: the law of the samples when parameters are kept. *)
From Coquelicot Require Import Coquelicot.
From Verif Require Import Base ModelLinAlg SpecLinAlg ProofLinAlg SpecIntegral ProofIntegral
  ProofWallis ProofGauss ModelKernels SpecKernels ProofKernels ModelKDE SpecKDE ProofKDE ProofMarginal ProofMarginal2 ProofMultiReflect ProofTop ProofTop2 SpecMoments ProofMoments ModelExtrema ModelReflect
  ModelResample SpecResample ProofResample SpecLaw ProofLaw SpecKeepLaw ProofExamples ProofTop3.
Open Scope R_scope.
Notation length := List.length.

Definition keptb (n : nat) (keep : keeparg) (i : nat) : bool := existsb (Nat.eqb i) (keep_dims n keep).
Lemma keptb_spec n keep i : keptb n keep i = true <-> kept n keep i.
Proof. unfold keptb. rewrite existsb_eqb_in. symmetry. apply kept_in. Qed.
Lemma keptb_false n keep i : keptb n keep i = false <-> ~ kept n keep i.
Proof. rewrite <- keptb_spec. destruct (keptb n keep i); split; intros; try discriminate; auto. contradiction. Qed.
Definition over (n : nat) (keep : keeparg) (p x : pt) : pt := fun i => if keptb n keep i then p i else x i.
Definition drawk (n : nat) (keep : keeparg) (U : mat) (data : list pt) (k : nat) (z : pt) : pt := over n keep (nth k data pt0) (draw n U data k z).

Theorem keep_law : forall n data ws M K keep, (1 <= n)%nat -> built_kde n data ws Gaussian M None K -> (forall i, kept n keep i -> (i < n)%nat) ->
  exists f (S : nat -> pt -> pt), kde_density K true n None PNone = Ok f
  /\ (forall size chunk arg rn ix, clear_arg K arg -> valid_choice data ws (size_of data size) (ix O) ->
        exists ss, snd (kde_resample K size keep chunk arg rn ix) = Ok ss /\ length ss = size_of data size
          /\ forall j i, (j < size_of data size)%nat -> nth j ss pt0 i = S (ix O j) (r_norm (rn O j)) i)
  /\ (forall k z, kept_of n keep (nth k data pt0) (S k z))
  /\ (forall g means base, of_others n keep g ->
       (forall k, (k < length data)%nat -> is_tintL (seq 0 n) (fun z => g (S k z) * std_normal n z) base (means k)) ->
       is_tintL (seq 0 n) (fun x => g x * f x) base (weighted ws means))
  /\ (forall g k mean base K1 (R1 : pt -> pt), of_params n g -> (k < length data)%nat -> built_kde n [nth k data pt0] [1] Gaussian M None K1 ->
       (forall x, replaced n keep (nth k data pt0) x (R1 x)) ->
       is_tintL (seq 0 n) (fun z => g (S k z) * std_normal n z) base mean ->
       exists f1, kde_density K1 true n None PNone = Ok f1 /\ is_tintL (seq 0 n) (fun x => g (R1 x) * f1 x) base mean)
  /\ (forall k base i, (i < n)%nat -> is_tintL (seq 0 n) (fun z => S k z i * std_normal n z) base (nth k data pt0 i))
  /\ (forall k base i j (m : pt), (i < n)%nat -> (j < n)%nat -> ~ kept n keep i -> ~ kept n keep j ->
        is_tintL (seq 0 n) (fun z => (S k z i - m i) * (S k z j - m j) * std_normal n z) base
          ((nth k data pt0 i - m i) * (nth k data pt0 j - m j) + M i j))
  /\ (forall k base i j (m : pt), (i < n)%nat -> (j < n)%nat -> kept n keep i \/ kept n keep j ->
        is_tintL (seq 0 n) (fun z => (S k z i - m i) * (S k z j - m j) * std_normal n z) base
          ((nth k data pt0 i - m i) * (nth k data pt0 j - m j))).
Proof.
  intros n data ws M K keep Hn HB Hk. destruct (built_inv _ _ _ _ _ _ _ HB) as (En & Ed & Hne & Er & Ew & Hl & Hnn & Hp & Et & Ek & Hs & Hpd).
  destruct (chol_posdef n M Hs Hpd) as [U [HU HF]].
  assert (Z : forall k, (k < length data)%nat -> is_tintL (seq 0 n) (fun z => (fun _ => 0) (draw n U data k z) * dist_evaluate Gaussian n z) pt0 0).
  { intros k _. apply tintL_ext with (2 := tintL_zero (seq 0 n) pt0). intros; ring. }
  destruct (law n data ws Gaussian M K U pt0 (fun _ => 0) (fun _ => 0) Hn HB HF ltac:(intros x y _; reflexivity) Z) as [f [Hf _]].
  assert (Cm : forall k base i, is_tintL (seq 0 n) (fun z => draw n U data k z i * std_normal n z) base (nth k data pt0 i)).
  { intros k base i. pose proof (tintL_plus _ _ _ _ _ _ (tintL_scal _ (nth k data pt0 i) _ _ _ (normal_total n base)) (color_mean n U base i)) as H.
    rewrite Rmult_1_r, Rplus_0_r in H. apply tintL_ext with (2 := H). intros z. unfold draw, padd. ring. }
  assert (Cc : forall c k base i, is_tintL (seq 0 n) (fun z => (draw n U data k z i - c) * std_normal n z) base (nth k data pt0 i - c)).
  { intros c k base i. pose proof (tintL_plus _ _ _ _ _ _ (Cm k base i) (tintL_scal _ (- c) _ _ _ (normal_total n base))) as H. rewrite Rmult_1_r in H. apply tintL_ext with (2 := H). intros z. ring. }
  exists f, (drawk n keep U data). split; [exact Hf|]. split; [|split; [|split; [|split; [|split; [|split]]]]].
  - intros size chunk arg rn ix Ha Hc.
    rewrite (kde_resample_clear _ _ _ _ _ _ _ Ha), Ek, Ed, En. cbn [snd k_dist k_matrix]. fold (size_of data size).
    destruct (resample_clear_ok Gaussian n M U data (kd_weights K) keep (size_of data size) (rn O) (ix O) HU) as [ss [E1 [E2 E3]]].
    { intros i Hi. apply Hk, kept_in, Hi. }
    { eapply choice_ok_built, HB. }
    exists ss. split; [exact E1|]. split; [exact E2|]. intros j i Hj. rewrite (E3 j Hj i). unfold drawk, over, keptb. destruct (existsb (Nat.eqb i) (keep_dims n keep)); [ring|reflexivity].
  - intros k z i Hi Hki. unfold drawk, over. apply keptb_spec in Hki. rewrite Hki. reflexivity.
  - intros g means base Hg Hm. assert (Hg' : of_params n g) by (intros x y H; apply Hg; intros i Hi _; apply H, Hi).
    destruct (law n data ws Gaussian M K U base g means Hn HB HF Hg') as [f' [Hf' HI]].
    + intros k Hkl. apply tintL_ext with (2 := Hm k Hkl). intros z. rewrite gauss_noise. f_equal. apply Hg. intros i Hi Hki. unfold drawk, over. apply keptb_false in Hki. rewrite Hki. reflexivity.
    + rewrite Hf in Hf'. injection Hf' as <-. exact HI.
  - intros g k mean base K1 R1 Hg Hkl HB1 HR Hm. set (p := nth k data pt0) in *.
    assert (Hg1 : of_params n (fun x => g (R1 x))).
    { intros x y H. apply Hg. intros i Hi. destruct (HR x i Hi) as [A1 A2], (HR y i Hi) as [B1 B2]. destruct (keptb n keep i) eqn:E.
      - apply keptb_spec in E. rewrite A1, B1 by exact E. reflexivity.
      - apply keptb_false in E. rewrite A2, B2 by exact E. apply H, Hi. }
    destruct (law n [p] [1] Gaussian M K1 U base (fun x => g (R1 x)) (fun _ => mean) Hn HB1 HF Hg1) as [f1 [Hf1 HI]].
    + intros k' Hk'. apply tintL_ext with (2 := Hm). intros z. rewrite gauss_noise. f_equal. replace k' with O by (cbn in Hk'; lia). apply Hg. intros i Hi.
      destruct (HR (draw n U [p] 0 z) i Hi) as [A1 A2]. unfold drawk, over. destruct (keptb n keep i) eqn:E.
      * apply keptb_spec in E. rewrite A1 by exact E. reflexivity.
      * apply keptb_false in E. rewrite A2 by exact E. reflexivity.
    + exists f1. split; [exact Hf1|]. replace mean with (weighted [1] (fun _ => mean)) by (unfold weighted; cbn; field). exact HI.
  - intros k base i Hi. destruct (keptb n keep i) eqn:E.
    + pose proof (tintL_scal _ (nth k data pt0 i) _ _ _ (normal_total n base)) as H. rewrite Rmult_1_r in H. apply tintL_ext with (2 := H). intros z. unfold drawk, over. rewrite E. reflexivity.
    + apply tintL_ext with (2 := Cm k base i). intros z. unfold drawk, over. rewrite E. reflexivity.
  - intros k base i j m Hi Hj Ki Kj. apply keptb_false in Ki. apply keptb_false in Kj. set (a := nth k data pt0).
    pose proof (tintL_plus _ _ _ _ _ _ (tintL_plus _ _ _ _ _ _ (tintL_scal _ ((a i - m i) * (a j - m j)) _ _ _ (normal_total n base))
       (tintL_plus _ _ _ _ _ _ (tintL_scal _ (a j - m j) _ _ _ (color_mean n U base i)) (tintL_scal _ (a i - m i) _ _ _ (color_mean n U base j)))) (color_cov n M U base i j HF Hi Hj)) as H.
    match type of H with is_tintL _ _ _ ?v => match goal with |- is_tintL _ _ _ ?w => replace w with v by ring end end.
    apply tintL_ext with (2 := H). intros z. unfold drawk, over. rewrite Ki, Kj. unfold draw, padd. fold a. ring.
  - intros k base i j m Hi Hj Kij. set (a := nth k data pt0).
    assert (L : forall i j, keptb n keep i = true -> is_tintL (seq 0 n) (fun z => (drawk n keep U data k z i - m i) * (drawk n keep U data k z j - m j) * std_normal n z) base ((a i - m i) * (a j - m j))).
    { intros i' j' E. destruct (keptb n keep j') eqn:Ej.
      - pose proof (tintL_scal _ ((a i' - m i') * (a j' - m j')) _ _ _ (normal_total n base)) as H. rewrite Rmult_1_r in H. apply tintL_ext with (2 := H). intros z. unfold drawk, over. rewrite E, Ej. fold a. reflexivity.
      - pose proof (tintL_scal _ (a i' - m i') _ _ _ (Cc (m j') k base j')) as H. fold a in H. apply tintL_ext with (2 := H). intros z. unfold drawk, over. rewrite E, Ej. fold a. ring. }
    destruct Kij as [Ki|Kj].
    + apply L, keptb_spec, Ki.
    + apply keptb_spec in Kj. rewrite Rmult_comm. apply tintL_ext with (2 := L j i Kj). intros z. ring.
Qed.
Lemma keep_law_example : exists K M, built_kde 2 data2 [1; 1; 1] Gaussian M None K /\ clear_arg K RNone /\ (forall i, kept 2 (KeepList [1%nat]) i -> (i < 2)%nat)
  /\ valid_choice data2 [1; 1; 1] (size_of data2 (Some 5%nat)) (fun j => Nat.modulo j 3)
  /\ of_others 2 (KeepList [1%nat]) (fun x => x 0%nat) /\ ~ of_others 2 (KeepList [1%nat]) (fun x => x 1%nat)
  /\ (exists K1, built_kde 2 [nth 1 data2 pt0] [1] Gaussian M None K1)
  /\ forall x, replaced 2 (KeepList [1%nat]) (nth 1 data2 pt0) x (fun i => if Nat.eqb i 1 then nth 1 data2 pt0 1%nat else x i).
Proof.
  destruct (data2_built Gaussian None) as [K [M [N [_ [HB _]]]]]. exists K, M. destruct (built_inv _ _ _ _ _ _ _ HB) as (_ & _ & _ & Er & _ & _ & _ & _ & _ & _ & Hs & Hpd).
  split; [exact HB|]. split; [right; split; [reflexivity|exact Er]|]. split; [intros i [<-|[]]; lia|]. split; [|split; [|split; [|split]]].
  - intros j Hj. assert (H : (Nat.modulo j 3 < 3)%nat) by (apply Nat.mod_upper_bound; lia). split; [exact H|].
    destruct (Nat.modulo j 3) as [|[|[|]]]; cbn; lra || lia.
  - intros x y H. apply H; [lia|]. intros [E|[]]. discriminate.
  - intros H. specialize (H (fun _ => 0) (fun k => if Nat.eqb k 1 then 1 else 0)). cbv beta in H. cbn in H.
    assert (E : 0 = 1); [|lra]. apply H. intros i Hi Hk. destruct i as [|[|i]]; [reflexivity|exfalso; apply Hk; left; reflexivity|lia].
  - eexists. split; [|split; [|split; [exact Hs|exact Hpd]]].
    + exists WNone, (BwAtom (BNum 1)), false, None, (Some M), None. split; [left; split; reflexivity|]. reflexivity.
    + cbn [kd_kernel]. unfold kernel_init. do 3 f_equal. apply kernel_matrix_1.
  - intros x i Hi. destruct i as [|[|i]]; [| |lia]; cbn; split.
    + intros [E|[]]. discriminate.
    + reflexivity.
    + reflexivity.
    + intros E. exfalso. apply E. left. reflexivity.
Qed.
Lemma weighted_plus ws v c : 0 < lsum ws -> weighted ws (fun k => v k + c) = weighted ws v + c.
Proof.
  intros H. unfold weighted. assert (E : rsum (length ws) (fun k => nth k ws 0) = lsum ws).
  { clear. induction ws as [|w ws IH]; [reflexivity|]. cbn [length lsum]. rewrite <- IH. rewrite rsum_shift. reflexivity. }
  rewrite (rsum_ext _ _ (fun k => nth k ws 0 * v k + nth k ws 0 * c)) by (intros; ring). rewrite rsum_plus, rsum_scal_r, E. field. lra.
Qed.
Theorem keep_narrower : forall n data ws M K keep i, (1 <= n)%nat -> built_kde n data ws Gaussian M None K -> (forall q, kept n keep q -> (q < n)%nat) -> kept n keep i ->
  exists f (S : nat -> pt -> pt) means, kde_density K true n None PNone = Ok f
  /\ (forall size chunk arg rn ix, clear_arg K arg -> valid_choice data ws (size_of data size) (ix O) ->
        exists ss, snd (kde_resample K size keep chunk arg rn ix) = Ok ss /\ length ss = size_of data size
          /\ forall j i, (j < size_of data size)%nat -> nth j ss pt0 i = S (ix O j) (r_norm (rn O j)) i)
  /\ forall c base, (forall k, is_tintL (seq 0 n) (fun z => (S k z i - c) * (S k z i - c) * std_normal n z) base (means c k))
       /\ is_tintL (seq 0 n) (fun x => (x i - c) * (x i - c) * f x) base (weighted ws (means c) + M i i) /\ weighted ws (means c) < weighted ws (means c) + M i i.
Proof.
  intros n data ws M K keep i Hn HB Hk Ki. pose proof (Hk i Ki) as Hi. destruct (keep_law n data ws M K keep Hn HB Hk) as (f & S & Hf & HS & _ & _ & _ & _ & _ & HC).
  destruct (built_inv _ _ _ _ _ _ _ HB) as (_ & _ & _ & _ & _ & _ & _ & Hp & _ & _ & Hs & Hpd).
  destruct (gaussian_samples n data ws M K Hn HB) as (f' & S' & Hf' & _ & HL & _ & HV). rewrite Hf in Hf'. injection Hf' as <-.
  exists f, S, (fun c k => (nth k data pt0 i - c) * (nth k data pt0 i - c)). split; [exact Hf|]. split; [exact HS|]. intros c base. split; [|split].
  - intros k. exact (HC k base i i (fun _ => c) Hi Hi (or_introl Ki)).
  - rewrite <- (weighted_plus ws _ _ Hp). apply (HL (fun x => (x i - c) * (x i - c))).
    + intros x y H. rewrite !H by exact Hi. reflexivity.
    + intros k _. exact (HV k base i i (fun _ => c) Hi Hi).
  - assert (0 < M i i); [|lra]. set (e := fun j => if Nat.eqb j i then 1 else 0). assert (P : 0 < quad n M e). { apply Hpd. exists i. split; [exact Hi|]. unfold e. rewrite Nat.eqb_refl. lra. }
    assert (E : quad n M e = M i i); [|lra]. unfold quad, e. rewrite (rsum_ext n _ (fun a => if Nat.eqb a i then M a i else 0)).
    + rewrite (rsum_delta n (fun a => M a i)) by exact Hi. reflexivity.
    + intros a Ha. destruct (Nat.eqb a i).
      * rewrite (rsum_ext n _ (fun b => if Nat.eqb b i then M a b else 0)); [rewrite (rsum_delta n (fun b => M a b)) by exact Hi; reflexivity|]. intros b Hb. destruct (Nat.eqb b i); ring.
      * rewrite (rsum_ext n _ (fun _ => 0)); [apply rsum_zero|]. intros b Hb. ring.
Qed.

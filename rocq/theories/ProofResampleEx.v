(** Concrete cases for the resampling properties. *)
From Coq Require Import FunctionalExtensionality.
From Verif Require Import Base ModelLinAlg SpecLinAlg ProofLinAlg ModelKernels ProofKernels ModelKDE SpecKDE ModelExtrema SpecNormal ProofNormal ProofExtrema
  ModelReflect SpecReflect ProofReflectArg ModelInterp ProofInterp ModelResample SpecResample ProofReflect1 ProofKDE ProofExamples ProofTop2 ProofTop3
  ProofResample ProofResample2 ProofResample3 ProofResample4.
Open Scope R_scope.
Notation length := List.length.

Lemma ex_keep_reflect : exists K M (refl : reflspec) arg, built_kde 2 data2 [1; 1; 1] Gaussian M None K /\ bounds_used K arg refl
  /\ has_inside refl data2 [1; 1; 1] /\ (forall i, kept 2 (KeepInt 1) i -> (i < 2)%nat /\ nth i refl None = None)
  /\ kept 2 (KeepInt 0) 0 /\ nth 0 refl None <> None.
Proof.
  destruct (data2_built Gaussian None) as [K [M [N [_ [HB _]]]]].
  exists K, M, [Some (Some (Ropp 1), None); None], (RSeq KList [ESeq KList [VNum (Ropp 1); VNone]; EAtom VNone]).
  split; [exact HB|]. destruct (built_inv _ _ _ _ _ _ _ HB) as (En & Ed & _).
  split; [right; rewrite En, Ed; reflexivity|]. split; [|split; [|split; [reflexivity|discriminate]]].
  - exists q00, 1, q00. split; [left; reflexivity|]. split; [lra|]. split; [left; reflexivity|].
    intros [|[|[|i]]] b E; try discriminate E. injection E as <-. cbn. split; [|discriminate].
    intros lo El; injection El as <-. unfold q00. lra.
  - intros i ->. split; [lia|reflexivity].
Qed.

Lemma half_bounds K : built_kde 1 hdata [1] Box ident None K -> bounds_used K harg hspec /\ has_inside hspec hdata [1]
  /\ forall p, In p hdata -> strictly_inside hspec p.
Proof.
  intros HB. destruct (built_inv _ _ _ _ _ _ _ HB) as (En & Ed & _).
  assert (Hin : strictly_inside hspec (pt1 (1 / 2))).
  { intros [|[|i]] b E; try discriminate E. injection E as <-. cbn. split; [|discriminate]. intros lo El; injection El as <-. unfold pt1; lra. }
  split; [right; rewrite En, Ed; reflexivity|]. split.
  - exists (pt1 (1 / 2)), 1, (pt1 (1 / 2)). split; [left; reflexivity|]. split; [lra|]. split; [left; reflexivity|exact Hin].
  - intros p [<-|[]]. exact Hin.
Qed.

Lemma ex_reflected_outcomes : exists K ss, built_kde 1 hdata [1] Box ident None K /\ bounds_used K harg hspec /\ has_inside hspec hdata [1]
  /\ snd (kde_resample K (Some 1%nat) KeepNone 1 harg (fun _ _ => mkRnd (fun _ => 1) (fun _ => 0) (fun _ _ => 0)) (fun _ _ => O)) = Ok ss
  /\ snd (kde_resample K (Some 1%nat) KeepNone 1 harg (fun _ _ => mkRnd (fun _ => 1) (fun _ => 0) (fun _ _ => Ropp 1)) (fun _ _ => O)) = Err RuntimeError.
Proof.
  destruct (unit_kde 1 hdata [1] Box None) as [K [_ [HB _]]]; [discriminate|reflexivity| | |].
  { intros v [<-|[]]; lra. } { exists 1. split; [left; reflexivity|lra]. }
  destruct (half_bounds K HB) as [Hb [Hi Hs]].
  assert (Hcase : forall v k ss0, snd (kde_resample K (Some k) KeepNone 1 RFalse (fun _ => fun _ => mkRnd (fun _ => 1) (fun _ => 0) (fun _ _ => v)) (fun _ _ => O)) = Ok ss0 ->
     length ss0 = k /\ forall s, In s ss0 -> s O = 1 / 2 + v).
  { intros v k ss0 E.
    destruct (kept_verbatim 1 hdata [1] Box ident None K (Some k) KeepNone 1 RFalse (fun _ => fun _ => mkRnd (fun _ => 1) (fun _ => 0) (fun _ _ => v)) (fun _ _ => O) HB (or_introl eq_refl))
      as [ss [U (E1 & E2 & E3 & E4)]]; [intros i []|intros j _; split; [cbn; lia|cbn; lra]|].
    rewrite E in E1. injection E1 as <-. cbn [size_of] in *. split; [exact E2|]. intros s Hin.
    destruct (In_nth ss0 s pt0 Hin) as [j [Hj <-]]. rewrite E2 in Hj. destruct (E4 j Hj) as [p [w [Hin' [_ Hp]]]].
    destruct Hin' as [Hin'|[]]. injection Hin' as <- <-. destruct (Hp O ltac:(lia)) as [_ Hk]. rewrite Hk by (intros []).
    cbn [rsum dist_sample Nat.eqb r_sym]. destruct (factor_1 _ _ E3) as [-> _]. rewrite ident_refl, sqrt_1. unfold pt1. ring. }
  assert (Hrun : forall v, exists trials : list (list pt), (forall ss, In ss trials -> ss <> []) /\ (forall ss s, In ss trials -> In s ss -> s O = 1 / 2 + v)
    /\ let accepted := flat_map (filter (inside hspec)) trials in
       ((1 <= length accepted)%nat /\ snd (kde_resample K (Some 1%nat) KeepNone 1 harg (fun _ _ => mkRnd (fun _ => 1) (fun _ => 0) (fun _ _ => v)) (fun _ _ => O)) = Ok (firstn 1 accepted)
        \/ (length accepted < 1)%nat /\ length trials = (10 * num_chunks 1 1)%nat
         /\ snd (kde_resample K (Some 1%nat) KeepNone 1 harg (fun _ _ => mkRnd (fun _ => 1) (fun _ => 0) (fun _ _ => v)) (fun _ _ => O)) = Err RuntimeError)).
  { intros v. destruct (candidates_unreflected _ _ _ _ _ _ _ (Some 1%nat) KeepNone 1 harg hspec (fun _ _ => mkRnd (fun _ => 1) (fun _ => 0) (fun _ _ => v)) (fun _ _ => O) HB Hb ltac:(lia) ltac:(intros i []) Hs)
      as [trials (A & B & C)]. exists trials.
    split; [|split; [|exact C]]; intros ss.
    - intros H1. destruct (In_nth trials ss [] H1) as [t [Ht <-]]. destruct (B t Ht) as [k [Hk1 Hk]]. destruct (Hcase v k _ Hk) as [Hlen _].
      intros E. rewrite E in Hlen. cbn in Hlen. lia.
    - intros s H1 H2. destruct (In_nth trials ss [] H1) as [t [Ht <-]]. destruct (B t Ht) as [k [_ Hk]]. apply (Hcase v k _ Hk). exact H2. }
  assert (Hins : forall s : pt, inside hspec s = Rltb 0 (s O)).
  { intros s. unfold inside, hspec. cbn. destruct (Rltb 0 (s O)); reflexivity. }
  destruct (Hrun 0) as [tr0 (N0 & V0 & C0)]. destruct (Hrun (Ropp 1)) as [tr1 (N1 & V1 & C1)]. cbv zeta in C0, C1.
  exists K. eexists. split; [exact HB|]. split; [exact Hb|]. split; [exact Hi|]. split.
  - destruct C0 as [[_ C0]|[C0 [L0 _]]]; [exact C0|]. exfalso. destruct tr0 as [|ss tr0]; [discriminate L0|].
    destruct ss as [|s ss]; [apply (N0 [] (or_introl eq_refl)); reflexivity|]. cbn [flat_map filter app] in C0.
    rewrite Hins, (V0 (s :: ss) s (or_introl eq_refl) (or_introl eq_refl)) in C0. destruct (Rltb_spec 0 (1 / 2 + 0)); [cbn in C0; lia|lra].
  - destruct C1 as [[C1 _]|[_ [_ C1]]]; [|exact C1]. exfalso.
    destruct (flat_map (filter (inside hspec)) tr1) as [|x l] eqn:E; [cbn in C1; lia|].
    assert (Hx : In x (flat_map (filter (inside hspec)) tr1)) by (rewrite E; left; reflexivity).
    apply in_flat_map in Hx. destruct Hx as [ss [H1 H2]]. apply filter_In in H2. destruct H2 as [H2 H3].
    rewrite Hins, (V1 ss x H1 H2) in H3. destruct (Rltb_spec 0 (1 / 2 + Ropp 1)); [lra|discriminate H3].
Qed.

Lemma triweight_cdf_facts : triweight_cdf 0 = 0 /\ triweight_cdf 1 = 1
  /\ (forall x y, 0 <= x -> x < y -> y <= 1 -> triweight_cdf x < triweight_cdf y)
  /\ (forall x, 0 <= x <= 1 -> derivable_pt_lim triweight_cdf x (2 * dist_evaluate Triweight 1 (fun _ => x))).
Proof. exact (conj triweight_cdf_0 (conj triweight_cdf_1 (conj triweight_cdf_incr triweight_cdf_density))). Qed.

Lemma ex_triweight : triweight_inverse 1 = Ok 1 /\ triweight_inverse 0 = Ok 0.
Proof.
  assert (Hm : INR tab_m <> 0) by (apply not_0_INR; pose proof tab_m_pos; lia).
  pose proof (inverse_knots tab_m tab_m tab_m_pos (Nat.le_refl _)) as H1. pose proof (inverse_knots tab_m 0 tab_m_pos (Nat.le_0_l _)) as H0.
  replace (INR tab_m / INR tab_m) with 1 in H1 by (field; exact Hm). rewrite triweight_cdf_1 in H1.
  change (INR 0) with 0 in H0. replace (0 / INR tab_m) with 0 in H0 by (field; exact Hm). rewrite triweight_cdf_0 in H0. split; assumption.
Qed.

Lemma ex_extrema : exists K ext ppf, built_kde 1 hdata [1] Box ident None K /\ kde_extrema K ppf None = Some (Ok ext)
  /\ valid_choice hdata [1] 3 (fun _ => O).
Proof.
  destruct (unit_kde 1 hdata [1] Box None) as [K [_ [HB _]]]; [discriminate|reflexivity| | |].
  { intros v [<-|[]]; lra. } { exists 1. split; [left; reflexivity|lra]. }
  destruct (built_inv _ _ _ _ _ _ _ HB) as (En & Ed & Hne & Er & Ew & Hl & Hnn & Hp & Et & Ek & Hs & Hpd).
  assert (Ek' : kd_kernel K = Some (mkKernel Box (kd_ndim K) ident)) by (rewrite En; exact Ek).
  eexists K, _, (fun _ => 0). split; [exact HB|]. split; [apply (kde_extrema_default K Box ident _ _ Ek' Er eq_refl)|].
  intros j _. cbn. split; [lia|lra].
Qed.

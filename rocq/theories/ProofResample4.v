(** The distribution of reflected samples differs from the reflected density; arguments of resample. *)
From Coquelicot Require Import Coquelicot.
From Coq Require Import FunctionalExtensionality.
From Verif Require Import Base ModelLinAlg SpecLinAlg ProofLinAlg ModelKernels SpecKernels ProofKernels ModelKDE SpecKDE ModelExtrema ProofExtrema
  ModelReflect SpecReflect ProofReflectArg ModelInterp ProofInterp ModelResample SpecResample ProofReflect1 ProofKDE ProofTop2 ProofTop3
  ProofResample ProofResample2 ProofResample3.
Open Scope R_scope.
Notation length := List.length.

Lemma resample_no_true K size keep chunk arg rn ix : no_true arg -> fst (kde_resample K size keep chunk arg rn ix) = arg.
Proof.
  intros H. unfold kde_resample. destruct arg; try reflexivity; unfold kernel_resample; cbn [fst]; apply check_reflect_no_true, H.
Qed.

Theorem all_calls_no_true arg : no_true arg ->
  (forall n data w b diag resc d cova neffa, fst (kde_new n data w b diag resc d cova neffa arg) = arg)
  /\ (forall K (prob : bool) pdim p, fst (density_call K prob pdim arg p) = arg)
  /\ (forall K size keep chunk rn ix, fst (kde_resample K size keep chunk arg rn ix) = arg).
Proof.
  intros H. destruct (calls_no_true arg H) as [H1 H2]. split; [exact H1|]. split; [exact H2|]. intros. apply resample_no_true, H.
Qed.

Definition hdata : list pt := [pt1 (1 / 2)].

Definition hspec : reflspec := [Some (Some 0, None)].
Definition harg : rarg := RSeq KList [ESeq KList [VNum 0; VNone]].

Lemma half_plain : exists g, kernel_density (mkKernel Box 1 ident) 1 1 hdata (Some [1]) None None = Ok g
  /\ forall t, g (pt1 t) = (if Rleb ((t - 1 / 2) * (t - 1 / 2)) 1 then 1 else 0) / 2.
Proof.
  destruct (kernel_density_plain Box 1 ident hdata (Some [1]) (ident_sym 1) (ident_posdef 1)) as [N [W [HN [HW [HsN [Hinv [Hd Hk]]]]]]].
  { intros w E; injection E as <-; reflexivity. }
  eexists. split; [exact Hk|]. intros t. cbv beta.
  rewrite mdet_ident, Rabs_R1, sqrt_1, Rmult_1_l. cbn [dist_norm]. rewrite nball_vol_1. f_equal.
  unfold eval_numba, hdata, sumf. cbn [combine map lsum fst snd fold_right].
  rewrite (ident_white 1 N W _ _ HN HW). unfold norm2, psub, pt1. cbn [rsum prof].
  rewrite Rplus_0_l, Rmult_1_r. try rewrite Rplus_0_r. reflexivity.
Qed.

Lemma is_RInt_const_eq (a b c l : R) : (b - a) * c = l -> is_RInt (fun _ => c) a b l.
Proof. intros <-. apply (@is_RInt_const R_NormedModule). Qed.

Lemma half_refl K : built_kde 1 hdata [1] Box ident None K ->
  exists f, kde_density K true 1 (Some hspec) PNone = Ok f
    /\ is_RInt (fun t => f (pt1 t)) 0 (1 / 2) (1 / 2) /\ is_RInt (fun t => f (pt1 t)) (1 / 2) (3 / 2) (1 / 2)
    /\ (forall t, t < 0 \/ 3 / 2 < t -> f (pt1 t) = 0).
Proof.
  intros HB. destruct (density_refl_exists _ _ _ _ _ _ _ true hspec HB eq_refl) as [f Hf]. exists f. split; [exact Hf|].
  destruct (density_refl_as _ _ _ _ _ _ _ true hspec f HB eq_refl Hf) as [f0 [Hf0 ->]].
  destruct (density_refl_1 _ _ _ _ _ _ Hf0) as [g [Hg [_ Hfg]]].
  destruct half_plain as [g' [Hg' Hv]]. rewrite Hg' in Hg. injection Hg as <-.
  assert (EF : forall t, scaled true [1] f0 (pt1 t) = if Rltb t 0 then 0 else
     (if Rleb ((t - 1 / 2) * (t - 1 / 2)) 1 then 1 else 0) / 2 + (if Rleb ((2 * 0 - t - 1 / 2) * (2 * 0 - t - 1 / 2)) 1 then 1 else 0) / 2).
  { intros t. unfold scaled. replace (lsum [1]) with 1 by (cbn; ring). replace (f0 (pt1 t) / 1) with (f0 (pt1 t)) by field. rewrite Hfg. unfold fold1, outside, opt_term, pt1 at 1 2. cbn [fst snd].
    rewrite orb_false_r. destruct (Rltb t 0); [reflexivity|]. rewrite !Hv. rewrite Rplus_0_r. reflexivity. }
  assert (H1 : forall t, 0 < t < 1 / 2 -> scaled true [1] f0 (pt1 t) = 1).
  { intros t Ht. rewrite EF. destruct (Rltb_spec t 0); [lra|].
    destruct (Rleb_spec ((t - 1 / 2) * (t - 1 / 2)) 1); [|nra].
    destruct (Rleb_spec ((2 * 0 - t - 1 / 2) * (2 * 0 - t - 1 / 2)) 1); [|nra]. field. }
  assert (H2 : forall t, 1 / 2 < t < 3 / 2 -> scaled true [1] f0 (pt1 t) = 1 / 2).
  { intros t Ht. rewrite EF. destruct (Rltb_spec t 0); [lra|].
    destruct (Rleb_spec ((t - 1 / 2) * (t - 1 / 2)) 1); [|nra].
    destruct (Rleb_spec ((2 * 0 - t - 1 / 2) * (2 * 0 - t - 1 / 2)) 1); [nra|]. field. }
  split; [|split].
  - apply (is_RInt_ext (fun _ => 1)).
    + intros x. rewrite Rmin_left, Rmax_right by lra. intros Hx. symmetry. apply H1. exact Hx.
    + apply is_RInt_const_eq. field.
  - apply (is_RInt_ext (fun _ => 1 / 2)).
    + intros x. rewrite Rmin_left, Rmax_right by lra. intros Hx. symmetry. apply H2. exact Hx.
    + apply is_RInt_const_eq. field.
  - intros t Ht. rewrite EF. destruct (Rltb_spec t 0); [reflexivity|].
    destruct (Rleb_spec ((t - 1 / 2) * (t - 1 / 2)) 1); [nra|].
    destruct (Rleb_spec ((2 * 0 - t - 1 / 2) * (2 * 0 - t - 1 / 2)) 1); [nra|]. field.
Qed.

(** Every candidate is 1/2 + u with u uniform on [-1, 1). *)
Lemma half_draw K chunk rn ix : built_kde 1 hdata [1] Box ident None K -> valid_choice hdata [1] 1 (ix O) ->
  exists s, snd (kde_resample K (Some 1%nat) KeepNone chunk RFalse rn ix) = Ok [s]
    /\ s O = 1 / 2 + r_sym (rn O O) O O.
Proof.
  intros HB Hc.
  destruct (kept_verbatim 1 hdata [1] Box ident None K (Some 1%nat) KeepNone chunk RFalse rn ix HB (or_introl eq_refl)) as [ss [U (E1 & E2 & E3 & E4)]];
    [intros i []|exact Hc|].
  cbn [size_of] in *. destruct ss as [|s [|s' ss]]; try discriminate E2. exists s. split; [exact E1|].
  destruct (E4 O ltac:(lia)) as [p [w [Hin [_ Hp]]]]. destruct Hin as [Hin|[]]. injection Hin as <- <-.
  destruct (Hp O ltac:(lia)) as [_ Hk]. cbn [nth] in Hk. rewrite Hk by (intros []). cbn [rsum dist_sample Nat.eqb].
  destruct (factor_1 _ _ E3) as [-> _]. rewrite ident_refl, sqrt_1. unfold pt1. ring.
Qed.

(** C21: half of the reflected density, but only a third of the accepted candidates, is below 1/2. *)
Theorem reflected_distribution_differs : exists K (refl : reflspec) arg f,
  built_kde 1 hdata [1] Box ident None K /\ bounds_used K arg refl /\ (forall p, In p hdata -> strictly_inside refl p)
  /\ kde_density K true 1 (Some refl) PNone = Ok f
  /\ is_RInt (fun t => f (pt1 t)) 0 (1 / 2) (1 / 2) /\ is_RInt (fun t => f (pt1 t)) 0 (3 / 2) 1
  /\ (forall chunk rn ix, valid_choice hdata [1] 1 (ix O) ->
      exists s, snd (kde_resample K (Some 1%nat) KeepNone chunk RFalse rn ix) = Ok [s]
        /\ let u := r_sym (rn O O) O O in
           (strictly_inside refl s <-> - (1 / 2) < u) /\ (s O <= 1 / 2 <-> u <= 0))
  /\ (0 - - (1 / 2)) / (1 - - (1 / 2)) <> 1 / 2.
Proof.
  destruct (unit_kde 1 hdata [1] Box None) as [K [_ [HB _]]]; [discriminate|reflexivity| | |].
  { intros v [<-|[]]; lra. } { exists 1. split; [left; reflexivity|lra]. }
  destruct (half_refl K HB) as [f (Hf & I1 & I2 & I3)].
  exists K, hspec, harg, f. split; [exact HB|]. split; [|split; [|split; [exact Hf|split; [exact I1|split; [|split]]]]].
  - right. destruct (built_inv _ _ _ _ _ _ _ HB) as (En & Ed & _). rewrite En, Ed. reflexivity.
  - intros p [<-|[]] [|[|i]] b E; try discriminate E. injection E as <-. cbn. split; [|discriminate]. intros lo El; injection El as <-. unfold pt1; lra.
  - pose proof (is_RInt_Chasles _ _ _ _ _ _ I1 I2) as I. unfold plus in I. cbn in I. replace (1 / 2 + 1 / 2) with 1 in I by field. exact I.
  - intros chunk rn ix Hc. destruct (half_draw K chunk rn ix HB Hc) as [s [E1 E2]]. exists s. split; [exact E1|]. cbv zeta. rewrite E2.
    split; [|split; lra]. split.
    + intros H. destruct (H O _ eq_refl) as [Hlo _]. specialize (Hlo 0 eq_refl). rewrite E2 in Hlo. lra.
    + intros H [|[|i]] b E; try discriminate E. injection E as <-. cbn. split; [|discriminate]. intros lo El; injection El as <-. rewrite E2. lra.
  - replace ((0 - - (1 / 2)) / (1 - - (1 / 2))) with (1 / 3) by field. lra.
Qed.

From Coquelicot Require Import Coquelicot.
From Coq Require Import FunctionalExtensionality Permutation.
From Verif Require Import Base ModelLinAlg SpecLinAlg ProofLinAlg SpecIntegral ProofIntegral ProofWallis ProofGauss
  ModelKernels SpecKernels ProofKernels ModelKDE SpecKDE ProofKDE ProofDensity ProofAffine ProofMoments ProofMarginal ProofMarginal2 ProofTop ProofReflect1 ProofTop2 ProofTop3 SpecReflected ProofReflected.
From Verif Require ProofDist.
Open Scope R_scope.
Notation length := List.length.

(* ---------------------------------------------------------------- iterated integrals *)
Lemma tintN_translate m (G : pt -> R) (p : pt) : forall b l, is_tintN m G (psub b p) l -> is_tintN m (fun y => G (psub y p)) b l.
Proof.
  induction m as [|m IH]; intros b l H; cbn [is_tintN] in *; [exact H|].
  destruct H as [g [H1 H2]]. exists (fun t => g (1 * t + - p m)). split.
  - intros t. apply IH. replace (psub (upd b m t) p) with (upd (psub b p) m (1 * t + - p m)); [apply H1|].
    apply functional_extensionality. intros k. unfold psub, upd. destruct (Nat.eqb_spec k m) as [->|]; [ring|reflexivity].
  - replace l with (l / 1) by field. apply tint_comp_lin; [lra|exact H2].
Qed.

Lemma tintN_neg m (G : pt -> R) : forall b l, is_tintN m G (fun k => - b k) l -> is_tintN m (fun y => G (fun k => - y k)) b l.
Proof.
  induction m as [|m IH]; intros b l H; cbn [is_tintN] in *; [exact H|].
  destruct H as [g [H1 H2]]. exists (fun t => g (- t)). split.
  - intros t. apply IH. replace (fun k => - upd b m t k) with (upd (fun k => - b k) m (- t)); [apply H1|].
    apply functional_extensionality. intros k. unfold upd. destruct (Nat.eqb_spec k m); reflexivity.
  - apply tint_opp. exact H2.
Qed.

Definition local (n : nat) (G : pt -> R) : Prop := forall x y : pt, (forall k, (k < n)%nat -> x k = y k) -> G x = G y.

Lemma tintN_base n (G : pt -> R) m : local n G -> forall b b' l, (forall k, (m <= k < n)%nat -> b k = b' k) ->
  is_tintN m G b l -> is_tintN m G b' l.
Proof.
  intros HG. induction m as [|m IH]; intros b b' l Hb H; cbn [is_tintN] in *.
  - rewrite <- H. apply HG. intros k Hk. symmetry. apply Hb. lia.
  - destruct H as [g [H1 H2]]. exists g. split; [|exact H2]. intros t. apply IH with (2 := H1 t).
    intros k Hk. unfold upd. destruct (Nat.eqb_spec k m); [reflexivity|apply Hb; lia].
Qed.

Lemma tintL_select n ps (G : pt -> R) : NoDup ps -> length ps = n -> local n G -> forall m, (m <= n)%nat ->
  forall b base l, (forall k, (m <= k < n)%nat -> b k = select ps base k) -> is_tintN m G b l ->
  is_tintL (rev (firstn m ps)) (fun x => G (select ps x)) base l.
Proof.
  intros Hnd Hl HG. induction m as [|m IH]; intros Hm b base l Hb H; cbn [is_tintN] in *.
  - cbn [firstn rev is_tintL]. rewrite <- H. apply HG. intros k Hk. symmetry. apply Hb. lia.
  - destruct H as [g [H1 H2]].
    assert (E : rev (firstn (S m) ps) = nth m ps O :: rev (firstn m ps)).
    { assert (E : firstn (S m) ps = firstn m ps ++ [nth m ps O]).
      { clear - Hm Hl. subst n. revert m Hm. induction ps as [|a ps IH]; intros m Hm; [cbn in Hm; lia|].
        destruct m as [|m]; [reflexivity|]. cbn [firstn nth app]. rewrite <- IH; [reflexivity|cbn in Hm; lia]. }
      rewrite E, rev_app_distr. reflexivity. }
    rewrite E. cbn [is_tintL]. exists g. split; [|exact H2]. intros t.
    apply IH with (b := upd b m t); [lia| |apply H1].
    intros k Hk. unfold select, upd.
    destruct (Nat.eqb_spec k m) as [->|Hne]; [rewrite Nat.eqb_refl; reflexivity|].
    destruct (Nat.eqb_spec (nth k ps O) (nth m ps O)) as [E'|_]; [|apply Hb; lia].
    exfalso. apply Hne. apply (proj1 (NoDup_nth ps O) Hnd); [lia|lia|exact E'].
Qed.

Lemma tintL_zero qs : forall base, is_tintL qs (fun _ => 0) base 0.
Proof.
  induction qs as [|q qs IH]; intros base; cbn [is_tintL]; [reflexivity|].
  exists (fun _ => 0). split; [intros t; apply IH|apply tint_zero].
Qed.
Lemma tintL_plus qs f g : forall base lf lg, is_tintL qs f base lf -> is_tintL qs g base lg -> is_tintL qs (fun x => f x + g x) base (lf + lg).
Proof.
  induction qs as [|q qs IH]; intros base lf lg Hf Hg; cbn [is_tintL] in *; [rewrite Hf, Hg; reflexivity|].
  destruct Hf as [hf [F1 F2]]. destruct Hg as [hg [G1 G2]]. exists (fun t => hf t + hg t). split.
  - intros t. apply IH; auto.
  - apply tint_plus; assumption.
Qed.
Lemma tintL_sumf (A : Type) qs (f : A -> pt -> R) (v : A -> R) (l : list A) base :
  (forall a, In a l -> is_tintL qs (f a) base (v a)) -> is_tintL qs (fun x => sumf (fun a => f a x) l) base (sumf v l).
Proof.
  induction l as [|a l IH]; intros H; cbn [sumf].
  - apply tintL_zero.
  - apply (tintL_plus qs (f a) (fun x => sumf (fun a => f a x) l)).
    + apply H. left. reflexivity.
    + apply IH. intros b Hb. apply H. right. exact Hb.
Qed.
Lemma tintL_unique qs f : forall base l1 l2, is_tintL qs f base l1 -> is_tintL qs f base l2 -> l1 = l2.
Proof.
  induction qs as [|q qs IH]; intros base l1 l2 H1 H2; cbn [is_tintL] in *; [congruence|].
  destruct H1 as [g1 [A1 B1]]. destruct H2 as [g2 [A2 B2]]. apply (tint_unique g1); [exact B1|].
  apply tint_ext with (2 := B2). intros t. exact (IH _ _ _ (A2 t) (A1 t)).
Qed.
Lemma tintL_ext_on qs f g : forall base l, (forall x, (forall k, ~ In k qs -> x k = base k) -> f x = g x) ->
  is_tintL qs f base l -> is_tintL qs g base l.
Proof.
  induction qs as [|q qs IH]; intros base l H HI; cbn [is_tintL] in *.
  - rewrite <- (H base); [exact HI|reflexivity].
  - destruct HI as [h [H1 H2]]. exists h. split; [|exact H2]. intros t. apply IH with (2 := H1 t).
    intros x Hx. apply H. intros k Hk. rewrite Hx by (intros Hin; apply Hk; right; exact Hin).
    apply upd_other. intros ->. apply Hk. left. reflexivity.
Qed.
Lemma tintL_nonneg qs f : (forall x, 0 <= f x) -> forall base l, is_tintL qs f base l -> 0 <= l.
Proof.
  intros Hf. induction qs as [|q qs IH]; intros base l H; cbn [is_tintL] in *; [rewrite <- H; apply Hf|].
  destruct H as [g [H1 H2]]. apply (tint_nonneg g); [|exact H2]. intros t. exact (IH _ _ (H1 t)).
Qed.

(* ---------------------------------------------------------------- one kernel *)
Lemma quad_local n N : local n (quad n N).
Proof. intros x y H. unfold quad. apply rsum_ext; intros a Ha. apply rsum_ext; intros b Hb. rewrite !H by assumption. reflexivity. Qed.
Lemma quad_neg n N x : quad n N (fun k => - x k) = quad n N x.
Proof. unfold quad. apply rsum_ext; intros a Ha. apply rsum_ext; intros b Hb. ring. Qed.

(** One kernel integrated over all dimensions but [i]: a function of the distance along [i], even. *)
Lemma kernel_marginal n d M N i others : symmetric n M -> posdef n M -> is_inverse n M N -> Permutation (i :: others) (seq 0 n) ->
  exists Z h, (forall base, is_tintN n (fun y => spec_prof d (quad n N y)) base Z) /\ is_tint h Z /\ (forall t, h (- t) = h t)
    /\ forall p base : pt, is_tintL others (fun x => spec_prof d (quad n N (psub x p))) base (h (base i - p i)).
Proof.
  intros Hs Hp Hi HP.
  set (ps := rev (i :: others)).
  assert (HPS : Permutation ps (seq 0 n)) by (unfold ps; rewrite <- Permutation_rev; exact HP).
  assert (Hl : length ps = n) by (rewrite (Permutation_length HPS), seq_length; reflexivity).
  assert (Hnd : NoDup ps) by (apply Permutation_NoDup with (seq 0 n); [symmetry; exact HPS|apply seq_NoDup]).
  assert (Hb : forall q, In q ps -> (q < n)%nat) by (intros q Hq; apply (Permutation_in _ HPS) in Hq; apply in_seq in Hq; lia).
  destruct n as [|m]; [rewrite <- HPS in HP; exfalso; unfold ps in Hl; rewrite rev_length in Hl; discriminate Hl|].
  assert (Efm : rev (firstn m ps) = others /\ nth m ps O = i).
  { unfold ps in *. cbn [rev] in *. rewrite app_length, rev_length in Hl. cbn [length] in Hl.
    assert (Hm : length (rev others) = m) by (rewrite rev_length; lia). split.
    - rewrite <- Hm, firstn_app, Nat.sub_diag, firstn_all. cbn [firstn]. rewrite app_nil_r. apply rev_involutive.
    - rewrite app_nth2 by lia. rewrite Hm, Nat.sub_diag. reflexivity. }
  destruct Efm as [Efm Enm].
  set (MM := submat ps M). set (NN := submat ps N).
  assert (HsM : symmetric (S m) MM) by (rewrite <- Hl; apply (submat_sym (S m)); assumption).
  assert (HpM : posdef (S m) MM) by (rewrite <- Hl; apply (submat_posdef (S m)); assumption).
  assert (HiM : is_inverse (S m) MM NN) by (apply submat_inverse; assumption).
  assert (HdM : mdet (S m) MM = mdet (S m) M) by (apply mdet_submat; assumption).
  assert (HZ : forall A B, symmetric (S m) A -> posdef (S m) A -> is_inverse (S m) A B ->
    forall base, is_tintN (S m) (fun y => spec_prof d (quad (S m) B y)) base (sqrt (Rabs (mdet (S m) A)) * dist_norm d (S m))).
  { intros A B HA HB HAB base.
    destruct (kernel_density_plain d (S m) A [] None HA HB) as [N' [W [HN' [HW [HsN [Hinv' [Hd Hk]]]]]]]; [intros w' E; discriminate E|].
    pose proof (inverse_unique (S m) A N' B Hinv' HAB) as Hag. pose proof (sqrt_mdet_pos (S m) A HA HB) as Hsq.
    pose proof (prof_quad_integral d (S m) A N' W (fun _ => 0) base ltac:(lia) HsN HW Hsq Hd) as H.
    apply tintN_ext with (2 := H). intros x.
    rewrite (white_dist2_quad (S m) N' W) by assumption. rewrite prof_spec. f_equal.
    apply quad_ext; [exact Hag|]. intros k _. unfold psub. ring. }
  pose proof (HZ MM NN HsM HpM HiM origin) as HM. rewrite HdM in HM. cbn [is_tintN] in HM. destruct HM as [h [Hh Hz]].
  set (G := fun y => spec_prof d (quad (S m) NN y)) in *.
  assert (HG : local (S m) G) by (intros x y Hxy; unfold G; f_equal; apply quad_local; exact Hxy).
  exists (sqrt (Rabs (mdet (S m) M)) * dist_norm d (S m)), h. split; [apply (HZ M N); assumption|]. split; [exact Hz|]. split.
  - intros t. apply (tintN_unique m G (upd origin m t)); [|apply Hh].
    apply tintN_ext with (f := fun y => G (fun k => - y k)); [intros x; unfold G; rewrite quad_neg; reflexivity|].
    apply tintN_neg. apply (tintN_base (S m) G m HG (upd origin m (- t))); [|apply Hh].
    intros k Hk. unfold upd. destruct (Nat.eqb_spec k m); [reflexivity|lia].
  - intros p base.
    assert (HT : is_tintN m (fun y => G (psub y (select ps p))) (select ps base) (h (base i - p i))).
    { apply tintN_translate. apply (tintN_base (S m) G m HG (upd origin m (base i - p i))); [|apply Hh].
      intros k Hk. replace k with m by lia. rewrite upd_same. unfold psub, select. rewrite Enm. reflexivity. }
    assert (HL : local (S m) (fun y => G (psub y (select ps p)))).
    { intros x y Hxy. apply HG. intros k Hk. unfold psub. rewrite (Hxy k Hk). reflexivity. }
    pose proof (tintL_select (S m) ps _ Hnd Hl HL m ltac:(lia) (select ps base) base _ ltac:(reflexivity) HT) as H.
    rewrite Efm in H. apply tintL_ext with (2 := H). intros x. unfold G.
    rewrite <- (submat_quad (S m) ps N (psub x p) HPS). fold NN. reflexivity.
Qed.

(* ---------------------------------------------------------------- one reflected dimension *)
Lemma rsum_single n i f : (i < n)%nat -> (forall j, (j < n)%nat -> j <> i -> f j = 0) -> rsum n f = f i.
Proof.
  intros Hi H. rewrite <- (rsum_delta n f i Hi). apply rsum_ext. intros k Hk.
  destruct (Nat.eqb_spec k i) as [->|Hne]; [reflexivity|apply H; assumption].
Qed.
Lemma perm_notin i others n : Permutation (i :: others) (seq 0 n) -> ~ In i others /\ (i < n)%nat.
Proof.
  intros H. split.
  - assert (Hnd : NoDup (i :: others)) by (apply Permutation_NoDup with (seq 0 n); [symmetry; exact H|apply seq_NoDup]).
    inversion Hnd; assumption.
  - assert (Hin : In i (seq 0 n)) by (apply (Permutation_in _ H); left; reflexivity). apply in_seq in Hin. lia.
Qed.
Lemma within_from_only (r : reflspec) i x j : (forall k, k <> i -> nth k r None = None) -> (j <= i)%nat -> (within_from r x j <-> within r x i).
Proof.
  intros H Hj. split; [intros Hw; apply Hw; exact Hj|]. intros Hw k Hk.
  destruct (Nat.eq_dec k i) as [->|Hne]; [exact Hw|apply within_none, H, Hne].
Qed.
Lemma reflected_only n data ws d M refl K N (prob : bool) (r : reflspec) i f : (i < n)%nat ->
  built_kde n data ws d M refl K -> is_inverse n M N -> length r = n -> (forall k, k <> i -> nth k r None = None) ->
  kde_density K prob n (Some r) PNone = Ok f -> exists Z, 0 < Z /\ (forall base, is_tintN n (fun y => spec_prof d (quad n N y)) base Z)
  /\ forall x, (within r x i -> f x = mass prob ws / lsum ws * ((spec_sum d n N (combine data ws) x
                  + sumf (fun v => spec_sum d n N (mirrored_data i v (combine data ws)) x) (boundaries (nth i r None))) / Z))
            /\ (~ within r x i -> f x = 0).
Proof.
  intros Hi HB HN HL Ho Hf. destruct (top_reflected n data ws d M refl K N prob r ltac:(lia) HB HN HL) as [Z [f' [HZ [HZI [Hf' Hv]]]]].
  rewrite Hf in Hf'. injection Hf' as <-. exists Z. split; [exact HZ|]. split; [exact HZI|]. intros x.
  destruct (Hv x) as [s0 [s [E [H0 [H0' Hs]]]]].
  assert (Hsj : forall j, (j < n)%nat -> j <> i -> s j = 0).
  { intros j Hj Hne. destruct (Hs j Hj) as [A B]. rewrite (Ho j Hne) in A. cbn [boundaries sumf] in A.
    destruct (Classical_Prop.classic (within_from r x j)) as [C|C]; auto. }
  split; intros Hw; rewrite E.
  - rewrite H0 by (apply (within_from_only r i); [exact Ho|lia|exact Hw]).
    rewrite (rsum_single n i); [|exact Hi|intros j Hj Hne; apply Hsj; [exact Hj|exact Hne]].
    rewrite (proj1 (Hs i Hi)) by (apply (within_from_only r i); [exact Ho|lia|exact Hw]). reflexivity.
  - rewrite H0' by (intros C; apply Hw; exact (proj1 (within_from_only r i x 0 Ho ltac:(lia)) C)).
    rewrite (rsum_single n i); [|exact Hi|intros j Hj Hne; apply Hsj; [exact Hj|exact Hne]].
    rewrite (proj2 (Hs i Hi)) by (intros C; apply Hw; exact (proj1 (within_from_only r i x i Ho ltac:(lia)) C)). unfold Rdiv. ring.
Qed.

Lemma built_inverse n data ws d M refl K : built_kde n data ws d M refl K -> exists N, is_inverse n M N.
Proof.
  intros HB. destruct (built_inv _ _ _ _ _ _ _ HB) as (_ & _ & _ & _ & _ & Hl & _ & _ & _ & _ & Hs & Hp).
  destruct (kernel_density_plain d n M data (Some ws) Hs Hp) as [N [W [_ [_ [_ [Hinv _]]]]]]; [intros ? E; injection E as <-; exact Hl|].
  exists N. exact Hinv.
Qed.

(** All dimensions but the reflected one integrated out: the fold of the marginal. *)
Lemma top_fold n data ws d M K (prob : bool) (r : reflspec) i others f g : built_kde n data ws d M None K -> length r = n ->
  Permutation (i :: others) (seq 0 n) -> (forall j, j <> i -> nth j r None = None) ->
  kde_density K prob n None PNone = Ok g -> kde_density K prob n (Some r) PNone = Ok f ->
  exists G, (forall t, 0 <= G t) /\ is_tint G (mass prob ws) /\ forall base : pt,
    is_tintL others g base (G (base i))
    /\ (within r base i -> is_tintL others f base (G (base i) + sumf (fun v => G (2 * v - base i)) (boundaries (nth i r None))))
    /\ (~ within r base i -> is_tintL others f base 0).
Proof.
  intros HB HL HP Ho Hg Hf. destruct (perm_notin _ _ _ HP) as [Hni Hi].
  destruct (built_inverse _ _ _ _ _ _ _ HB) as [N HN].
  destruct (built_inv _ _ _ _ _ _ _ HB) as (En & Ed & Hne & Er & Ew & Hl & Hnn & Hp & Et & Ek & Hs & Hpd).
  destruct (kernel_marginal n d M N i others Hs Hpd HN HP) as [Z [h [HZ [Hh [Hev Hm]]]]].
  destruct (reflected_only n data ws d M None K N prob r i f Hi HB HN HL Ho Hf) as [Z' [HZp [HZ' Hv]]].
  rewrite (tintN_unique n _ origin Z' Z (HZ' origin) (HZ origin)) in *. clear Z' HZ'.
  set (c := mass prob ws / lsum ws).
  assert (HS : forall wd base, is_tintL others (spec_sum d n N wd) base (sumf (fun dw => snd dw * h (base i - fst dw i)) wd)).
  { intros wd base. unfold spec_sum.
    apply (tintL_sumf _ others (fun dw x => snd dw * spec_prof d (quad n N (psub x (fst dw)))) (fun dw => snd dw * h (base i - fst dw i))).
    intros dw _. apply tintL_scal. apply Hm. }
  assert (HP0 : forall t, 0 <= h t).
  { intros t. apply (tintL_nonneg others (fun x => spec_prof d (quad n N (psub x origin)))) with (base := upd origin i t);
      [intros x; rewrite <- (prof_spec d); apply prof_nonneg|].
    replace t with (upd origin i t i - origin i) at 2 by (rewrite upd_same; unfold origin; ring). apply Hm. }
  assert (Hc : 0 < c).
  { unfold c. apply Rdiv_lt_0_compat; [destruct prob; unfold mass; lra|exact Hp]. }
  exists (fun t => c * (/ Z * sumf (fun dw => snd dw * h (t - fst dw i)) (combine data ws))). split; [|split].
  - intros t. apply Rmult_le_pos; [lra|]. apply Rmult_le_pos; [left; apply Rinv_0_lt_compat, HZp|].
    apply sumf_nonneg. intros [p w] Hin. apply in_combine_r in Hin. apply Rmult_le_pos; [apply Hnn, Hin|apply HP0].
  - replace (mass prob ws) with (c * (/ Z * (lsum ws * Z))) by (unfold c; field; lra).
    apply tint_scal, tint_scal.
    replace (lsum ws * Z) with (sumf (fun dw : pt * R => snd dw * Z) (combine data ws)).
    + apply (tint_sumf (fun (dw : pt * R) t => snd dw * h (t - fst dw i)) (fun dw => snd dw * Z)).
      intros dw _. apply tint_scal.
      replace Z with (Z / 1) by field. apply tint_ext with (f := fun t => h (1 * t + - fst dw i)); [intros t; f_equal; ring|].
      apply tint_comp_lin; [lra|exact Hh].
    + clear - Hl. rewrite sumf_scal_r, ProofAffine.sumf_snd_combine by exact Hl. reflexivity.
  - intros base. split; [|split].
    + destruct (density_plain_ex _ _ _ _ _ _ prob HB) as [g0 [Hg0 Eg]]. rewrite Hg in Eg. injection Eg as ->.
      destruct (density_textbook d n M N data ws ltac:(lia) Hs Hpd HN Hl) as [Z2 [g1 [_ [HZ2 [Hg1 Ev]]]]].
      rewrite Hg0 in Hg1. injection Hg1 as <-. rewrite (tintN_unique n _ origin Z2 Z (HZ2 origin) (HZ origin)) in Ev.
      apply tintL_ext with (f := fun x => c * (/ Z * spec_sum d n N (combine data ws) x)).
      * intros x. rewrite scaled_val by exact Hp. rewrite Ev. unfold c. field. lra.
      * apply tintL_scal, tintL_scal, HS.
    + intros Hw. apply tintL_ext_on with (f := fun x => c * (/ Z * (spec_sum d n N (combine data ws) x
                  + sumf (fun v => spec_sum d n N (mirrored_data i v (combine data ws)) x) (boundaries (nth i r None))))).
      * intros x Hx. rewrite (proj1 (Hv x)); [unfold c, Rdiv; ring|].
        intros lo hi E. rewrite (Hx i Hni). apply Hw. exact E.
      * replace (c * (/ Z * sumf (fun dw => snd dw * h (base i - fst dw i)) (combine data ws))
             + sumf (fun v => c * (/ Z * sumf (fun dw => snd dw * h (2 * v - base i - fst dw i)) (combine data ws))) (boundaries (nth i r None)))
          with (c * (/ Z * (sumf (fun dw => snd dw * h (base i - fst dw i)) (combine data ws)
             + sumf (fun v => sumf (fun dw => snd dw * h (base i - fst dw i)) (mirrored_data i v (combine data ws))) (boundaries (nth i r None))))).
        { apply tintL_scal, tintL_scal, tintL_plus; [apply HS|].
          apply (tintL_sumf _ others (fun v x => spec_sum d n N (mirrored_data i v (combine data ws)) x)). intros v _. apply HS. }
        rewrite !Rmult_plus_distr_l. f_equal. rewrite <- !sumf_scal. apply sumf_ext. intros v _. f_equal. f_equal.
        unfold mirrored_data. rewrite sumf_map. apply sumf_ext. intros dw _. cbn [fst snd]. f_equal.
        unfold mirrored. destruct (Nat.eq_dec i i); [|contradiction].
        rewrite <- Hev. f_equal. unfold pt in *. ring.
    + intros Hw. apply tintL_ext_on with (f := fun _ => 0); [|apply tintL_zero].
      intros x Hx. symmetry. apply (proj2 (Hv x)). intros C. apply Hw. intros lo hi E. rewrite <- (Hx i Hni). apply C. exact E.
Qed.

Definition fold_o (G : R -> R) (ob : option bnd) (t : R) : R := match ob with None => G t | Some b => fold1 G b t end.
Lemma top_folded n data ws d M K (prob : bool) (r : reflspec) i others f g : built_kde n data ws d M None K -> length r = n ->
  Permutation (i :: others) (seq 0 n) -> (forall j, j <> i -> nth j r None = None) ->
  kde_density K prob n None PNone = Ok g -> kde_density K prob n (Some r) PNone = Ok f ->
  exists G, (forall t, 0 <= G t) /\ is_tint G (mass prob ws) /\ (forall base : pt, is_tintL others g base (G (base i)))
    /\ forall (base : pt) t, is_tintL others f (upd base i t) (fold_o G (nth i r None) t).
Proof.
  intros HB HL HP Ho Hg Hf. destruct (top_fold _ _ _ _ _ _ _ _ _ _ _ _ HB HL HP Ho Hg Hf) as [G [H0 [Ht H]]].
  exists G. split; [exact H0|]. split; [exact Ht|]. split; [intros base; apply H|].
  intros base t. destruct (H (upd base i t)) as [_ [H1 H2]]. rewrite upd_same in H1. unfold fold_o.
  destruct (nth i r None) as [b|] eqn:Eb.
  - unfold fold1. pose proof (outside_within r (upd base i t) i b Eb) as Hiff. rewrite upd_same in Hiff.
    destruct (outside b t).
    + apply H2. intros C. apply Hiff in C. discriminate C.
    + replace (G t + opt_term (fun loc => G (2 * loc - t)) (fst b) + opt_term (fun loc => G (2 * loc - t)) (snd b))
        with (G t + sumf (fun v => G (2 * v - t)) (boundaries (Some b))); [apply H1, Hiff; reflexivity|].
      destruct b as [[lo|] [hi|]]; cbn; ring.
  - cbn [boundaries sumf] in H1. rewrite Rplus_0_r in H1. apply H1. apply within_none. exact Eb.
Qed.

Lemma top_fold_one n data ws d M K (prob : bool) (r : reflspec) i others f base : built_kde n data ws d M None K -> length r = n ->
  Permutation (i :: others) (seq 0 n) -> (forall j, j <> i -> nth j r None = None) -> (length (boundaries (nth i r None)) <= 1)%nat ->
  kde_density K prob n (Some r) PNone = Ok f -> is_tintL (i :: others) f base (mass prob ws).
Proof.
  intros HB HL HP Ho Hb Hf. destruct (density_plain_ex _ _ _ _ _ _ prob HB) as [g0 [_ Hg]].
  destruct (top_folded _ _ _ _ _ _ _ _ _ _ _ _ HB HL HP Ho Hg Hf) as [G [H0 [Hi [_ H]]]].
  cbn [is_tintL]. exists (fold_o G (nth i r None)). split; [intros t; apply H|].
  destruct (nth i r None) as [[[lo|] [hi|]]|]; cbn in Hb; try (exfalso; lia); cbn [fold_o].
  - apply tint_ext with (2 := fold_lower _ _ lo Hi). intros t. unfold fold_o, fold1, outside, opt_term.
    cbn [fst snd]. rewrite orb_false_r. destruct (Rltb t lo); ring.
  - apply tint_ext with (2 := fold_upper _ _ hi Hi). intros t. unfold fold_o, fold1, outside, opt_term.
    cbn [fst snd]. rewrite orb_false_l. destruct (Rltb hi t); ring.
  - apply tint_ext with (2 := Hi). intros t. unfold fold_o, fold1, outside, opt_term. cbn [fst snd orb]. ring.
  - exact Hi.
Qed.

Lemma top_fold_both n data ws d M K (prob : bool) (r : reflspec) i others lo hi f g : built_kde n data ws d M None K -> length r = n ->
  Permutation (i :: others) (seq 0 n) -> (forall j, j <> i -> nth j r None = None) -> nth i r None = Some (Some lo, Some hi) -> lo < hi ->
  kde_density K prob n None PNone = Ok g -> kde_density K prob n (Some r) PNone = Ok f ->
  exists G y, (forall t, 0 <= G t) /\ is_tint G (mass prob ws) /\ (forall base : pt, is_tintL others g base (G (base i)))
    /\ is_RInt G (2 * lo - hi) (2 * hi - lo) y /\ forall base, is_tintL (i :: others) f base y.
Proof.
  intros HB HL HP Ho Eb Hlt Hg Hf.
  destruct (top_folded _ _ _ _ _ _ _ _ _ _ _ _ HB HL HP Ho Hg Hf) as [G [H0 [Hi [Hm H]]]].
  destruct (tint_ex_RInt _ _ (2 * lo - hi) (2 * hi - lo) Hi) as [y Hy]; [lra|].
  exists G, y. split; [exact H0|]. split; [exact Hi|]. split; [exact Hm|]. split; [exact Hy|]. intros base. cbn [is_tintL].
  exists (fold_o G (nth i r None)). split; [intros t; apply H|]. rewrite Eb. cbn [fold_o].
  apply tint_ext with (2 := fold_both _ lo hi y Hlt Hy). intros t. unfold fold_o, fold1, outside, opt_term. cbn [fst snd]. reflexivity.
Qed.

Lemma top_fold_two n data ws d M K (prob : bool) (r : reflspec) i others lo hi f base : built_kde n data ws d M None K -> length r = n ->
  Permutation (i :: others) (seq 0 n) -> (forall j, j <> i -> nth j r None = None) -> nth i r None = Some (Some lo, Some hi) ->
  finite d = true -> lo < hi -> sqrt (M i i) <= hi - lo -> (forall p, In p data -> lo <= p i <= hi) ->
  kde_density K prob n (Some r) PNone = Ok f -> is_tintL (i :: others) f base (mass prob ws).
Proof.
  intros HB HL HP Ho Eb Hfin Hlt Hw Hin Hf. destruct (density_plain_ex _ _ _ _ _ _ prob HB) as [g0 [_ Hg]].
  destruct (perm_notin _ _ _ HP) as [Hni Hi].
  destruct (top_fold_both _ _ _ _ _ _ _ _ _ _ _ _ _ _ HB HL HP Ho Eb Hlt Hg Hf) as [G [y [H0 [Ht [Hm [Hy H]]]]]].
  replace (mass prob ws) with y; [apply H|].
  assert (Hz : forall t, (forall p, In p data -> sqrt (M i i) < Rabs (t - p i)) -> G t = 0).
  { intros t Hfar. pose proof (Hm (upd origin i t)) as Hm1. rewrite upd_same in Hm1.
    refine (tintL_unique others _ (upd origin i t) _ _ Hm1 _).
    apply tintL_ext_on with (f := fun _ => 0); [|apply tintL_zero]. intros x Hx. symmetry.
    apply (top_finite_support n data ws d M K prob _ x i HB Hfin Hi Hg). intros p Hp. rewrite (Hx i Hni), upd_same. apply Hfar, Hp. }
  apply (tint_supported _ _ (2 * lo - hi) (2 * hi - lo) y ltac:(lra) Ht Hy).
  - intros t Ht1. apply Hz. intros p Hp1. specialize (Hin p Hp1). rewrite Rabs_left; lra.
  - intros t Ht1. apply Hz. intros p Hp1. specialize (Hin p Hp1). rewrite Rabs_right; lra.
Qed.

(** Gaussian kernel, two boundaries: some of the total is lost. *)
Lemma gauss_marginal_low n data ws M K (prob : bool) i others g G t : built_kde n data ws Gaussian M None K ->
  Permutation (i :: others) (seq 0 n) -> kde_density K prob n None PNone = Ok g -> (forall base : pt, is_tintL others g base (G (base i))) ->
  exists m, 0 < m /\ forall s, t <= s <= t + 1 -> m <= G s.
Proof.
  intros HB HP Hg HG. destruct (perm_notin _ _ _ HP) as [Hni Hi].
  destruct (built_inv _ _ _ _ _ _ _ HB) as (En & Ed & Hne & Er & Ew & Hl & Hnn & Hp & Et & Ek & Hs & Hpd).
  pose proof (posdef_diag_pos n M i Hpd Hi) as HM. pose proof (lsum_pos_ex ws Hnn Hp) as Hex.
  assert (Hmass : 0 < mass prob ws / lsum ws).
  { apply Rdiv_lt_0_compat; [destruct prob; unfold mass; lra|exact Hp]. }
  assert (Hk : exists M1 data1 g1, 0 < M1 O O /\ length ws = length data1
    /\ kernel_density (mkKernel Gaussian 1 M1) 1 1 data1 (Some ws) None None = Ok g1
    /\ forall s, G s = mass prob ws / lsum ws * g1 (pt1 s)).
  { destruct (Nat.eq_dec n 1) as [->|Hn1].
    - destruct (density_plain_ex _ _ _ _ _ _ prob HB) as [g1 [Hg1 Eg]]. rewrite Hg in Eg. injection Eg as ->.
      assert (i = O) by lia. subst i. exists M, data, g1. split; [exact HM|]. split; [exact Hl|]. split; [exact Hg1|].
      intros s. specialize (HG (pt1 s)). apply Permutation_length in HP. destruct others; [|discriminate HP].
      cbn [is_tintL] in HG. rewrite scaled_val in HG by exact Hp. symmetry. exact HG.
    - assert (Hq : forall q, In q [i] -> (q < n)%nat) by (intros q [<-|[]]; exact Hi).
      destruct (top_params_ok n data ws Gaussian M K prob [i] HB Hn1 ltac:(constructor; [intros []|constructor]) Hq) as [g2 Hg2].
      assert (HP2 : Permutation (others ++ [i]) (seq 0 n)) by (rewrite <- HP, Permutation_app_comm; reflexivity).
      pose proof (fun base => top_marginal n data ws M K prob others [i] g g2 base HB HP2 ltac:(discriminate) Hn1 Hg Hg2) as Hm.
      rewrite (density_as_kernel_params _ _ _ _ _ _ prob [i] HB Hn1 Hq), (ProofDist.kernel_density_sub _ _ _ _ _ _ Hq) in Hg2.
      destruct (kernel_density _ _ _ _ _ _ _) as [g1|] eqn:Eg; [|discriminate]. cbn [bind] in Hg2. injection Hg2 as <-.
      exists (submat [i] M), (map (select [i]) data), g1. split; [exact HM|]. split; [rewrite map_length; exact Hl|]. split; [exact Eg|].
      intros s. specialize (HG (upd origin i s)). specialize (Hm (upd origin i s)). rewrite upd_same in HG.
      rewrite (tintL_unique _ _ _ _ _ HG Hm). rewrite scaled_val by exact Hp. f_equal.
      destruct (posdef_1 (submat [i] M) HM) as [Hs1 Hp1].
      destruct (kernel_density_inv _ _ _ _ _ _ _ _ Eg) as [n' [M' [N [W [w' [[E1 E2] [_ [HN [HW [_ [_ ->]]]]]]]]]]].
      cbn [k_ndim k_matrix k_dist List.length] in *. subst n' M'.
      rewrite (eval_numba_1 W _ _ (select [i] (upd origin i s)) (pt1 s)); [reflexivity|].
      unfold select, pt1. cbn [nth]. apply upd_same. }
  destruct Hk as [M1 [data1 [g1 [H1 [H2 [H3 H4]]]]]].
  destruct (gaussian_1_pos Gaussian M1 data1 ws g1 t eq_refl H1 H2 Hnn Hex H3) as [m [Hm Hge]].
  exists (mass prob ws / lsum ws * m). split; [apply Rmult_lt_0_compat; assumption|].
  intros s Hst. rewrite H4. apply Rmult_le_compat_l; [lra|apply Hge, Hst].
Qed.
Lemma top_fold_loses n data ws M K (prob : bool) (r : reflspec) i others lo hi f : built_kde n data ws Gaussian M None K -> length r = n ->
  Permutation (i :: others) (seq 0 n) -> (forall j, j <> i -> nth j r None = None) -> nth i r None = Some (Some lo, Some hi) -> lo < hi ->
  kde_density K prob n (Some r) PNone = Ok f -> exists y, y < mass prob ws /\ forall base, is_tintL (i :: others) f base y.
Proof.
  intros HB HL HP Ho Eb Hlt Hf. destruct (density_plain_ex _ _ _ _ _ _ prob HB) as [g0 [_ Hg]].
  destruct (top_fold_both _ _ _ _ _ _ _ _ _ _ _ _ _ _ HB HL HP Ho Eb Hlt Hg Hf) as [G [y [H0 [Ht [Hm [Hy H]]]]]].
  exists y. split; [|exact H].
  destruct (gauss_marginal_low n data ws M K prob i others _ G (2 * hi - lo) HB HP Hg Hm) as [m [Hmp Hge]].
  destruct (tint_ex_RInt _ _ (2 * hi - lo) (2 * hi - lo + 1) Ht) as [z Hz]; [lra|].
  pose proof (is_RInt_Chasles _ _ _ _ _ _ Hy Hz) as HC. unfold plus in HC; simpl in HC.
  pose proof (tint_split _ _ (2 * lo - hi) (2 * hi - lo + 1) (y + z) Ht ltac:(lra) HC H0) as Hle.
  assert (Hzm : (2 * hi - lo + 1 - (2 * hi - lo)) * m <= z).
  { apply (is_RInt_le (fun _ => m) G (2 * hi - lo) (2 * hi - lo + 1));
      [lra|apply is_RInt_const_r|exact Hz|]. intros x Hx. apply Hge. lra. }
  lra.
Qed.

(* ---------------------------------------------------------------- a data point in the corner *)
Lemma tintN_prod n (a : nat -> R -> R) (l : nat -> R) : (forall k, (k < n)%nat -> is_tint (a k) (l k)) ->
  forall base, is_tintN n (fun x => rprod n (fun k => a k (x k))) base (rprod n l).
Proof.
  induction n as [|n IH]; intros H base; cbn [is_tintN rprod]; [reflexivity|].
  exists (fun t => rprod n l * a n t). split.
  - intros t. replace (rprod n l * a n t) with (a n t * rprod n l) by ring.
    apply tintN_ext_base with (f := fun x => a n t * rprod n (fun k => a k (x k))).
    + intros x Hx. rewrite (Hx n (le_n n)), upd_same. ring.
    + apply tintN_scal. apply IH. intros k Hk. apply H. lia.
  - apply tint_scal. apply H. lia.
Qed.
Definition ge2 (t : R) : R := exp (- (t * t) / 2).
Lemma ge2_tint : is_tint ge2 (sqrt (2 * PI)).
Proof.
  pose proof (gauss_step 0 1 0 Rlt_0_1) as H. replace (sqrt (2 * PI)) with (sqrt (2 * PI) / 1 * exp (- 0 / 2)).
  - apply tint_ext with (2 := H). intros x. unfold ge2. f_equal. field.
  - replace (- 0 / 2) with 0 by field. rewrite exp_0. field.
Qed.
Lemma ge2_half : is_tint (fun t => if Rltb t 0 then 0 else ge2 t) (sqrt (2 * PI) / 2).
Proof.
  pose proof (fold_lower _ _ 0 ge2_tint) as H. apply (tint_scal (/ 2)) in H.
  replace (sqrt (2 * PI) / 2) with (/ 2 * sqrt (2 * PI)) by field. apply tint_ext with (2 := H).
  intros x. cbv beta. destruct (Rltb x 0); [ring|]. unfold ge2. replace ((2 * 0 - x) * (2 * 0 - x)) with (x * x) by ring. field.
Qed.
Lemma exp_norm2 n x : exp (- (norm2 n x / 2)) = rprod n (fun k => ge2 (x k)).
Proof.
  unfold norm2, ge2. induction n as [|n IH]; cbn [rsum rprod].
  - replace (- (0 / 2)) with 0 by field. apply exp_0.
  - rewrite <- IH, <- exp_plus. f_equal. field.
Qed.
Definition cut (j k : nat) (t : R) : R := if andb (Nat.leb j k) (Rltb t 0) then 0 else ge2 t.
Lemma cut_tint j k : is_tint (cut j k) (if Nat.leb j k then sqrt (2 * PI) / 2 else sqrt (2 * PI)).
Proof.
  unfold cut. destruct (Nat.leb j k); cbn [andb].
  - exact ge2_half.
  - exact ge2_tint.
Qed.
Lemma cut_in n j x : (forall k, (j <= k < n)%nat -> 0 <= x k) -> rprod n (fun k => cut j k (x k)) = rprod n (fun k => ge2 (x k)).
Proof.
  intros H. apply rprod_ext. intros k Hk. unfold cut. destruct (Nat.leb_spec j k); [|reflexivity]. cbn [andb].
  destruct (Rltb_spec (x k) 0) as [C|C]; [|reflexivity]. specialize (H k ltac:(lia)). lra.
Qed.
Lemma rprod_zero n f k : (k < n)%nat -> f k = 0 -> rprod n f = 0.
Proof.
  induction n as [|n IH]; intros Hk Hf; [lia|]. cbn [rprod]. destruct (Nat.eq_dec k n) as [->|]; [rewrite Hf; ring|].
  rewrite IH; [ring|lia|exact Hf].
Qed.
Lemma cut_out n j x k : (j <= k < n)%nat -> x k < 0 -> rprod n (fun k => cut j k (x k)) = 0.
Proof.
  intros Hk Hx. apply (rprod_zero n _ k); [lia|]. unfold cut. destruct (Nat.leb_spec j k); [|lia]. cbn [andb].
  destruct (Rltb_spec (x k) 0); [reflexivity|lra].
Qed.
Lemma halves n c : rprod n (fun k => if Nat.leb 0 k then c / 2 else c) + rsum n (fun j => rprod n (fun k => if Nat.leb j k then c / 2 else c)) = rprod n (fun _ => c).
Proof.
  induction n as [|n IH]; cbn [rsum rprod]; [ring|].
  rewrite (rsum_ext n _ (fun j => c / 2 * rprod n (fun k => if Nat.leb j k then c / 2 else c))).
  - rewrite rsum_scal. rewrite Nat.leb_refl. cbn [Nat.leb].
    rewrite (rprod_ext n (fun k => if Nat.leb n k then c / 2 else c) (fun _ => c)).
    + cbn [Nat.leb] in IH. nra.
    + intros k Hk. destruct (Nat.leb_spec n k); [lia|reflexivity].
  - intros j Hj. destruct (Nat.leb_spec j n); [|lia]. ring.
Qed.
Lemma halves_0 n c : rprod n (fun k => if Nat.leb 0 k then c / 2 else c) = rprod n (fun _ => c) / 2 ^ n.
Proof. induction n as [|n IH]; cbn [rprod pow]; [field|]. rewrite IH. cbn [Nat.leb]. field. apply pow_nonzero. lra. Qed.

Definition corner_r (n : nat) : reflspec := repeat (Some (Some 0, None)) n.
Lemma nth_corner n k : nth k (corner_r n) None = if Nat.ltb k n then Some (Some 0, None) else None.
Proof.
  unfold corner_r. revert k. induction n as [|n IH]; intros k; cbn [repeat nth]; [destruct k; reflexivity|].
  destruct k as [|k]; [reflexivity|]. rewrite IH. reflexivity.
Qed.
Lemma within_corner n x j : within_from (corner_r n) x j <-> forall k, (j <= k < n)%nat -> 0 <= x k.
Proof.
  split.
  - intros H k Hk. assert (E : nth k (corner_r n) None = Some (Some 0, None)) by (rewrite nth_corner; destruct (Nat.ltb_spec k n); [reflexivity|lia]).
    destruct (H k ltac:(lia) _ _ E) as [A _]. apply A. reflexivity.
  - intros H k Hk lo hi E. rewrite nth_corner in E. destruct (Nat.ltb_spec k n); [|discriminate E]. injection E as <- <-.
    split; intros v Ev; [injection Ev as <-; apply H; lia|discriminate Ev].
Qed.
Lemma corner_not n x j : ~ within_from (corner_r n) x j -> exists k, (j <= k < n)%nat /\ x k < 0.
Proof.
  intros H. apply Classical_Prop.NNPP. intros C. apply H. apply within_corner. intros k Hk.
  destruct (Rle_lt_dec 0 (x k)); [assumption|]. exfalso. apply C. eauto.
Qed.

Lemma mirrored_origin i (w : list R) : mirrored_data i 0 (combine [origin] w) = combine [origin] w.
Proof.
  destruct w as [|a w]; [reflexivity|]. unfold mirrored_data. cbn [combine map fst snd]. f_equal. f_equal.
  apply functional_extensionality. intros k. unfold mirrored, origin. destruct (Nat.eq_dec k i); ring.
Qed.

Lemma corner_share n K f base : (1 <= n)%nat -> built_kde n [origin] [1] Gaussian ident None K ->
  kde_pdf K n (Some (repeat (Some (Some 0, None)) n)) PNone = Ok f ->
  is_tintN n f base 1
  /\ forall fin, (forall x : pt, (forall i, (i < n)%nat -> 0 <= x i) -> fin x = f x) -> (forall x : pt, (exists i, (i < n)%nat /\ x i < 0) -> fin x = 0) ->
     is_tintN n fin base ((INR n + 1) / 2 ^ n).
Proof.
  intros Hn HB Hf0. assert (Hf : kde_density K true n (Some (corner_r n)) PNone = Ok f) by exact Hf0. clear Hf0.
  destruct (top_reflected n [origin] [1] Gaussian ident None K ident true (corner_r n) Hn HB (ident_inverse n) ltac:(apply repeat_length))
    as [Z [f' [HZ [HZI [Hf' Hv]]]]].
  rewrite Hf in Hf'. injection Hf' as <-.
  set (P := fun j (x : pt) => rprod n (fun k => cut j k (x k))).
  assert (Hcut : forall j x, (within_from (corner_r n) x j -> spec_sum Gaussian n ident (combine [origin] [1]) x = P j x)
                          /\ (~ within_from (corner_r n) x j -> 0 = P j x)).
  { intros j x. split; intros H.
    - unfold P. rewrite cut_in by (apply within_corner; exact H). rewrite <- exp_norm2.
      unfold spec_sum, sumf. cbn [combine map lsum fst snd spec_prof]. rewrite quad_ident, Rplus_0_r, Rmult_1_l. f_equal. f_equal. f_equal.
      unfold norm2. apply rsum_ext. intros k Hk. unfold psub, origin. ring.
    - destruct (corner_not n x j H) as [k [Hk Hx]]. symmetry. apply (cut_out n j x k); assumption. }
  assert (HP : forall j b, is_tintN n (P j) b (rprod n (fun k => if Nat.leb j k then sqrt (2 * PI) / 2 else sqrt (2 * PI)))).
  { intros j b. apply (tintN_prod n (cut j)). intros k _. apply cut_tint. }
  assert (EZ : Z = rprod n (fun _ => sqrt (2 * PI))).
  { apply (tintN_unique n _ origin _ _ (HZI origin)).
    apply tintN_ext with (2 := tintN_prod n (fun _ => ge2) (fun _ => sqrt (2 * PI)) (fun _ _ => ge2_tint) origin).
    intros x. cbv beta. rewrite <- exp_norm2. cbn [spec_prof]. rewrite quad_ident. reflexivity. }
  assert (Ef : forall x, f x = (P O x + rsum n (fun j => P j x)) / Z).
  { intros x. destruct (Hv x) as [s0 [s [Es [H0 [H0' Hs]]]]]. rewrite Es. unfold mass. cbn [lsum]. replace (1 / (1 + 0)) with 1 by field. rewrite Rmult_1_l.
    f_equal. f_equal.
    - destruct (Classical_Prop.classic (within_from (corner_r n) x 0)) as [C|C].
      + rewrite (H0 C). apply Hcut. exact C.
      + rewrite (H0' C). apply Hcut. exact C.
    - apply rsum_ext. intros j Hj. destruct (Hs j Hj) as [A B].
      destruct (Classical_Prop.classic (within_from (corner_r n) x j)) as [C|C].
      + rewrite (A C). rewrite nth_corner. destruct (Nat.ltb_spec j n); [|lia]. unfold sumf at 1. cbn [boundaries app map lsum].
        rewrite mirrored_origin, Rplus_0_r. apply Hcut. exact C.
      + rewrite (B C). apply Hcut. exact C. }
  split.
  - apply tintN_ext with (f := fun x => / Z * (P O x + rsum n (fun j => P j x))); [intros x; rewrite Ef; unfold Rdiv; ring|].
    replace 1 with (/ Z * Z) by (field; lra). apply tintN_scal. rewrite EZ, <- halves.
    apply tintN_plus; [apply HP|]. apply tintN_rsum. intros j Hj. apply HP.
  - intros fin H1' H2'.
    assert (H1 : forall x, within_from (corner_r n) x 0 -> fin x = f x) by (intros x H; apply H1'; intros i Hi; apply (proj1 (within_corner n x 0) H); lia).
    assert (H2 : forall x, ~ within_from (corner_r n) x 0 -> fin x = 0) by (intros x H; apply H2'; destruct (corner_not n x 0 H) as [k [Hk Hx]]; exists k; split; [lia|exact Hx]).
    apply tintN_ext with (f := fun x => (INR n + 1) / Z * P O x).
    + intros x. destruct (Classical_Prop.classic (within_from (corner_r n) x 0)) as [C|C].
      * rewrite (H1 x C), Ef. rewrite (rsum_ext n (fun j => P j x) (fun _ => P O x)).
        -- rewrite rsum_const. field. lra.
        -- intros j Hj. rewrite <- (proj1 (Hcut j x)), <- (proj1 (Hcut O x)); [reflexivity|exact C|].
           intros k Hk. apply C. lia.
      * rewrite (H2 x C), <- (proj2 (Hcut O x) C). ring.
    + replace ((INR n + 1) / 2 ^ n) with ((INR n + 1) / Z * (Z / 2 ^ n)) by (field; split; [apply pow_nonzero; lra|lra]).
      apply tintN_scal. rewrite EZ. rewrite <- halves_0. apply HP.
Qed.

Lemma corner_refuted : exists n data ws d M K (r : reflspec) f fin base l, built_kde n data ws d M None K /\ length r = n
  /\ (forall i, (i < n)%nat -> (length (boundaries (nth i r None)) <= 1)%nat) /\ (forall p i, In p data -> within r p i)
  /\ kde_pdf K n (Some r) PNone = Ok f /\ (forall x, within_from r x 0 -> fin x = f x) /\ (forall x, ~ within_from r x 0 -> fin x = 0)
  /\ is_tintN n fin base l /\ l < 1.
Proof.
  pose proof (k12_built Gaussian 2 None) as HB.
  destruct (density_refl_exists _ _ _ _ _ _ _ true (corner_r 2) HB eq_refl) as [f Hf].
  destruct (corner_share 2 _ f origin ltac:(lia) HB Hf) as [_ Hs].
  set (fin := fun x : pt => if andb (negb (Rltb (x O) 0)) (negb (Rltb (x 1%nat) 0)) then f x else 0).
  assert (Hin : forall x : pt, (forall i, (i < 2)%nat -> 0 <= x i) -> fin x = f x).
  { intros x Hx. unfold fin. pose proof (Hx O ltac:(lia)). pose proof (Hx 1%nat ltac:(lia)).
    destruct (Rltb_spec (x O) 0); [lra|]. destruct (Rltb_spec (x 1%nat) 0); [lra|]. reflexivity. }
  assert (Hout : forall x : pt, (exists i, (i < 2)%nat /\ x i < 0) -> fin x = 0).
  { intros x [i [Hi Hx]]. unfold fin. destruct i as [|[|i]]; [| |lia].
    - destruct (Rltb_spec (x O) 0); [reflexivity|lra].
    - destruct (Rltb_spec (x 1%nat) 0); [|lra]. rewrite Bool.andb_false_r. reflexivity. }
  specialize (Hs fin Hin Hout).
  exists 2%nat, [origin], [1], Gaussian, ident, (k12 Gaussian 2 None), (corner_r 2), f, fin, origin, ((INR 2 + 1) / 2 ^ 2).
  split; [exact HB|]. split; [reflexivity|]. split; [intros [|[|i]] Hi; cbn; lia|]. split.
  { intros p i [<-|[]] lo hi E. rewrite nth_corner in E. destruct (Nat.ltb i 2); [|discriminate E]. injection E as <- <-. unfold origin. split; intros v Ev; [injection Ev as <-; lra|discriminate Ev]. }
  split; [exact Hf|]. split; [intros x H; apply Hin; intros i Hi; apply (proj1 (within_corner 2 x 0) H); lia|].
  split; [intros x H; apply Hout; destruct (corner_not 2 x 0 H) as [k [Hk Hx]]; exists k; split; [lia|exact Hx]|].
  split; [exact Hs|]. cbn. lra.
Qed.

(** Non-vacuity: two parameters, the first (or the second) with boundaries. *)
Lemma ex_one_dimension : exists K f g, built_kde 2 [origin] [1] Box ident None K /\ Permutation [1%nat; 0%nat] (seq 0 2)
  /\ (forall j, j <> 1%nat -> nth j ([None; Some (Some (-1), Some 1)] : reflspec) None = None)
  /\ kde_density K true 2 None PNone = Ok g /\ kde_density K true 2 (Some [None; Some (Some (-1), Some 1)]) PNone = Ok f
  /\ finite Box = true /\ sqrt (ident 1%nat 1%nat) <= 1 - -1 /\ (forall p, In p [origin] -> -1 <= p 1%nat <= 1).
Proof.
  pose proof (k12_built Box 2 None) as HB.
  destruct (density_refl_exists _ _ _ _ _ _ _ true [None; Some (Some (-1), Some 1)] HB eq_refl) as [f Hf].
  destruct (density_plain_ex _ _ _ _ _ _ true HB) as [g0 [_ Hg]].
  exists (k12 Box 2 None), f, (scaled true [1] g0). split; [exact HB|]. split; [apply perm_swap|].
  split; [intros [|[|j]] Hj; [reflexivity|congruence|destruct j; reflexivity]|]. split; [exact Hg|]. split; [exact Hf|]. split; [reflexivity|].
  split; [rewrite ident_refl, sqrt_1; lra|]. intros p [<-|[]]. unfold origin. lra.
Qed.

(** Proofs about sample.py: gradients, and what [Sample_Grid.sample] returns. *)
From Coq Require Import ZArith Permutation.
From Verif Require Import Base ModelLinAlg ModelKernels ModelKDE ModelInterp ModelResample ModelUtils ModelNd ModelSample
  SpecUtils SpecNd SpecSample ProofInterp ProofUtils ProofUtils2 ProofUtils4 ProofNested ProofNd ProofNd2 ProofGrid ProofGrid2 ProofSample.
Open Scope R_scope.
Notation length := List.length.

(* ------------------------------------------------------------ gradients *)
Definition bitshape (D : nat) (ks : list nat) : list nat := map (fun i => if existsb (Nat.eqb i) ks then 2%nat else 1%nat) (seq 0 D).
Lemma nth_map_seq {A} (f : nat -> A) D i d : (i < D)%nat -> nth i (map f (seq 0 D)) d = f i.
Proof. intros H. rewrite (nth_indep _ d (f 0%nat)) by (rewrite map_length, seq_length; exact H). rewrite map_nth, seq_nth by exact H. reflexivity. Qed.
Lemma bitshape_cons D k ks : bitshape D (k :: ks) = set_nth k 2%nat (bitshape D ks).
Proof.
  apply nth_ext with 0%nat 0%nat; [rewrite set_nth_length; unfold bitshape; rewrite !map_length; reflexivity|].
  intros i Hi. unfold bitshape in Hi. rewrite map_length, seq_length in Hi. destruct (Nat.eq_dec k i) as [->|N].
  - rewrite set_nth_same by (unfold bitshape; rewrite map_length, seq_length; exact Hi). unfold bitshape. rewrite nth_map_seq by exact Hi. cbn. rewrite Nat.eqb_refl. reflexivity.
  - rewrite set_nth_other by exact N. unfold bitshape. rewrite !nth_map_seq by exact Hi. cbn. destruct (Nat.eqb_spec i k); [congruence|reflexivity].
Qed.
Lemma asum_split_axis sh : forall k F, (k < length sh)%nat -> nth k sh 0%nat = 1%nat ->
  asum (set_nth k 2%nat sh) F = asum sh F + asum sh (fun bits => F (set_nth k 1%nat bits)).
Proof.
  induction sh as [|n sh IH]; intros k F Hk H1; [cbn in Hk; lia|]. destruct k as [|k].
  - cbn in H1. subst n. cbn [set_nth asum rsum]. ring.
  - cbn [set_nth asum]. cbn in Hk, H1. rewrite <- rsum_plus. apply rsum_ext. intros i _. rewrite IH by (try lia; assumption). reflexivity.
Qed.
Lemma add_idx_length : forall l m, length (add_idx l m) = length l.
Proof. induction l as [|a l IH]; intros [|b m]; cbn; auto. Qed.
Lemma add_set k : forall idx bits, nth k bits 0%nat = 0%nat -> length bits = length idx ->
  set_nth k (S (nth k (add_idx idx bits) 0%nat)) (add_idx idx bits) = add_idx idx (set_nth k 1%nat bits).
Proof.
  induction k as [|k IH]; intros [|i idx] [|b bits] H L; cbn in *; try reflexivity; try lia.
  - subst b. f_equal. lia.
  - f_equal. apply IH; lia.
Qed.
Lemma norm_axis_nat nd k : (k < nd)%nat -> norm_axis nd (Z.of_nat k) = Some k.
Proof. intros H. unfold norm_axis. destruct (Z.leb_spec 0 (Z.of_nat k)); [|lia]. destruct (Z.ltb_spec (Z.of_nat k) (Z.of_nat nd)); [|lia]. cbn. rewrite Nat2Z.id. reflexivity. Qed.
Lemma pow2_INR n : INR (2 ^ n) = 2 ^ n.
Proof. rewrite pow_INR. reflexivity. Qed.

Lemma loop_value D ks : forall a, length (shp a) = D -> NoDup ks -> (forall k, In k ks -> (k < D)%nat /\ (2 <= nth k (shp a) 0)%nat) ->
  exists b, midpoints_loop a (map Z.of_nat ks) = Ok b /\ length (shp b) = D
  /\ (forall i, nth i (shp b) 0%nat = if existsb (Nat.eqb i) ks then (nth i (shp a) 0 - 1)%nat else nth i (shp a) 0%nat)
  /\ forall idx, length idx = D -> at_ b idx = asum (bitshape D ks) (fun bits => at_ a (add_idx idx bits)) / 2 ^ length ks.
Proof.
  induction ks as [|k ks IH]; intros a L ND H.
  - exists a. cbn. split; [reflexivity|]. split; [exact L|]. split; [reflexivity|]. intros idx Hi.
    assert (E : forall D idx, length idx = D -> asum (bitshape D []) (fun bits => at_ a (add_idx idx bits)) = at_ a idx).
    { intros D' idx' L'. unfold bitshape. cbn [existsb]. transitivity (asum (repeat 1%nat D') (fun bits => at_ a (add_idx idx' bits))).
      - f_equal. assert (G : forall n s, map (fun _ : nat => 1%nat) (seq s n) = repeat 1%nat n) by (clear; intros n; induction n as [|n IHn]; intros s; cbn; [reflexivity|rewrite IHn; reflexivity]). apply G.
      - revert L'. generalize (at_ a). revert idx'. induction D' as [|D' IHD]; intros [|i idx'] F L'; cbn in *; try lia; [reflexivity|].
        rewrite Rplus_0_l. rewrite Nat.add_0_r. apply (IHD idx' (fun r => F (i :: r))). lia. }
    rewrite E by exact Hi. field.
  - inversion ND as [|? ? Hnk ND']; subst x l. destruct (H k (or_introl eq_refl)) as [Hk H2].
    cbn [map midpoints_loop]. unfold midpoints_1d. rewrite L, norm_axis_nat by exact Hk. destruct (Nat.ltb_spec (nth k (shp a) 0%nat) 2) as [C|_]; [lia|].
    cbn [bind]. set (a1 := mkA _ _). assert (L1 : length (shp a1) = D) by (unfold a1; cbn; rewrite set_nth_length; exact L).
    destruct (IH a1 L1 ND') as (b & Hb & Lb & Sb & Vb).
    { intros j Hj. destruct (H j (or_intror Hj)). split; [assumption|]. unfold a1. cbn [shp]. rewrite set_nth_other by congruence. assumption. }
    exists b. split; [exact Hb|]. split; [exact Lb|]. split.
    { intros i. rewrite Sb. cbn [existsb]. unfold a1. cbn [shp]. destruct (Nat.eqb_spec i k) as [->|N].
      - assert (E : existsb (Nat.eqb k) ks = false) by (apply Bool.not_true_is_false; rewrite existsb_eqb_In; exact Hnk).
        rewrite E. cbn. rewrite set_nth_same by lia. reflexivity.
      - rewrite set_nth_other by congruence. reflexivity. }
    intros idx Hi. rewrite Vb by exact Hi. rewrite bitshape_cons.
    assert (B1 : nth k (bitshape D ks) 0%nat = 1%nat).
    { unfold bitshape. rewrite nth_map_seq by exact Hk. replace (existsb (Nat.eqb k) ks) with false; [reflexivity|]. symmetry. apply Bool.not_true_is_false. rewrite existsb_eqb_In. exact Hnk. }
    assert (BL : length (bitshape D ks) = D) by (unfold bitshape; rewrite map_length, seq_length; reflexivity).
    rewrite asum_split_axis by (rewrite ?BL; assumption). cbn [length pow].
    rewrite (asum_ext _ _ (fun bits => / 2 * (at_ a (add_idx idx bits) + at_ a (add_idx idx (set_nth k 1%nat bits))))).
    + rewrite asum_scal, asum_plus. field. apply pow_nonzero. lra.
    + intros bits Hb'. unfold a1. cbn [at_]. pose proof (inb_length _ _ Hb') as LB. pose proof (inb_nth _ _ k Hb' ltac:(lia)) as Hb0. rewrite B1 in Hb0. rewrite add_set by lia. reflexivity.
Qed.

Lemma bitshape_others D dim : (dim < D)%nat -> bitshape D (filter (fun k => negb (Nat.eqb k dim)) (seq 0 D)) = set_nth dim 1%nat (repeat 2%nat D).
Proof.
  intros H. apply nth_ext with 0%nat 0%nat; [rewrite set_nth_length; unfold bitshape; rewrite map_length, seq_length, repeat_length; reflexivity|].
  intros i Hi. unfold bitshape in Hi. rewrite map_length, seq_length in Hi. unfold bitshape. rewrite nth_map_seq by exact Hi. destruct (Nat.eq_dec dim i) as [->|N].
  - rewrite set_nth_same by (rewrite repeat_length; exact Hi). replace (existsb _ _) with false; [reflexivity|]. symmetry. apply Bool.not_true_is_false. rewrite existsb_eqb_In, filter_In, Nat.eqb_refl. cbn. intros [_ E]. discriminate E.
  - rewrite set_nth_other by exact N. rewrite (nth_indep _ 0%nat 2%nat) by (rewrite repeat_length; exact Hi). rewrite nth_repeat. replace (existsb _ _) with true; [reflexivity|]. symmetry. apply existsb_eqb_In, filter_In. split; [apply in_seq; lia|]. destruct (Nat.eqb_spec i dim); [congruence|reflexivity].
Qed.
Lemma others_length D dim : (dim < D)%nat -> length (filter (fun k => negb (Nat.eqb k dim)) (seq 0 D)) = (D - 1)%nat.
Proof.
  intros H. replace D with (dim + S (D - dim - 1))%nat at 1 by lia. rewrite seq_app, filter_app, app_length. cbn [seq filter Nat.add]. rewrite Nat.eqb_refl. cbn [negb].
  assert (A : forall s n, (forall i, (s <= i < s + n)%nat -> i <> dim) -> length (filter (fun k => negb (Nat.eqb k dim)) (seq s n)) = n).
  { intros s n. revert s. induction n as [|n IH]; intros s Hs; [reflexivity|]. cbn. destruct (Nat.eqb_spec s dim) as [E|_]; [exfalso; apply (Hs s); lia|]. cbn. rewrite IH by (intros i Hi; apply Hs; lia). reflexivity. }
  rewrite !A by (intros; lia). lia.
Qed.

(** The gradient along a dimension: difference of the mean densities of the two sides of the bin. *)
Lemma grad_value a dim : (dim < length (shp a))%nat -> (forall n, In n (shp a) -> (2 <= n)%nat) ->
  exists g, grad_along a dim = Ok g /\ shp g = map (fun n => (n - 1)%nat) (shp a)
  /\ forall idx, length idx = length (shp a) -> at_ g idx = (corner_sum a dim 1 idx - corner_sum a dim 0 idx) / 2 ^ (length (shp a) - 1).
Proof.
  intros Hd H2. set (D := length (shp a)) in *. unfold grad_along, midpoints. fold D. set (ks := filter _ _).
  assert (N2 : forall k, (k < D)%nat -> (2 <= nth k (shp a) 0)%nat) by (intros k Hk; apply H2, nth_In, Hk).
  assert (Hks : forall k, In k ks -> (k < D)%nat /\ k <> dim).
  { intros k Hk. apply filter_In in Hk. destruct Hk as [Hk Hn]. apply in_seq in Hk. split; [lia|]. destruct (Nat.eqb_spec k dim); [discriminate Hn|assumption]. }
  destruct (loop_value D ks (diff_ax dim a)) as (g & Hg & Lg & Sg & Vg).
  - unfold diff_ax. cbn. apply set_nth_length.
  - apply NoDup_filter, seq_NoDup.
  - intros k Hk. destruct (Hks k Hk) as [A B]. split; [exact A|]. unfold diff_ax. cbn [shp]. rewrite set_nth_other by congruence. apply N2, A.
  - exists g. split; [exact Hg|]. split.
    + apply nth_ext with 0%nat 0%nat; [rewrite map_length; exact Lg|]. intros i Hi. rewrite Lg in Hi. rewrite Sg. set (f := fun n : nat => (n - 1)%nat). rewrite (nth_indep (map f _) 0%nat (f 0%nat)) by (rewrite map_length; exact Hi).
      rewrite (map_nth f). unfold f. clear f. unfold diff_ax. cbn [shp]. destruct (Nat.eq_dec dim i) as [->|N].
      * rewrite set_nth_same by exact Hi. replace (existsb _ ks) with false; [reflexivity|]. symmetry. apply Bool.not_true_is_false. rewrite existsb_eqb_In. intros C. apply Hks in C. lia.
      * rewrite set_nth_other by exact N. replace (existsb _ ks) with true; [reflexivity|]. symmetry. apply existsb_eqb_In, filter_In. split; [apply in_seq; lia|]. destruct (Nat.eqb_spec i dim); [congruence|reflexivity].
    + intros idx Hi. rewrite Vg by exact Hi. unfold ks. rewrite bitshape_others, others_length by exact Hd. apply (f_equal (fun z => z / 2 ^ (D - 1))).
      unfold corner_sum. fold D. 
      rewrite (asum_ext _ _ (fun bits => at_ a (add_idx idx (set_nth dim 1%nat bits)) + (- (1)) * at_ a (add_idx idx (set_nth dim 0%nat bits)))).
      * rewrite asum_plus, asum_scal. ring.
      * intros bits Hb. pose proof (inb_length _ _ Hb) as LB. rewrite set_nth_length, repeat_length in LB.
        pose proof (inb_nth _ _ dim Hb ltac:(rewrite set_nth_length, repeat_length; exact Hd)) as Hb0. rewrite set_nth_same in Hb0 by (rewrite repeat_length; exact Hd).
        assert (B0 : nth dim bits 0%nat = 0%nat) by lia. unfold diff_ax. cbn [at_]. rewrite add_set by lia. replace (set_nth dim 0%nat bits) with bits by (rewrite <- B0; symmetry; apply set_nth_id). ring.
Qed.

(** Proofs about cumsum, trapz_dens_to_mass, trapz_nd and cumtrapz. *)
From Coq Require Import ZArith Permutation.
From Verif Require Import Base ModelLinAlg ModelKernels ModelKDE ModelInterp ModelResample ModelUtils ModelNd SpecUtils SpecNd ProofUtils ProofUtils2 ProofUtils3 ProofUtils4.
Open Scope R_scope.
Notation length := List.length.

(* ---------------------------------------------------------- index lists *)
Lemma set_nth_length {A} k (v : A) l : length (set_nth k v l) = length l.
Proof. revert k. induction l as [|x l IH]; intros [|k]; cbn; try reflexivity. rewrite IH. reflexivity. Qed.
Lemma set_nth_same {A} k (v : A) l d : (k < length l)%nat -> nth k (set_nth k v l) d = v.
Proof. revert k. induction l as [|x l IH]; intros [|k] H; cbn in *; try lia; [reflexivity|]. apply IH. lia. Qed.
Lemma set_nth_other {A} k k' (v : A) l d : k <> k' -> nth k' (set_nth k v l) d = nth k' l d.
Proof. revert k k'. induction l as [|x l IH]; intros [|k] [|k'] H; cbn; try reflexivity; try lia. apply IH. lia. Qed.
Lemma set_nth_comm {A} k k' (v w : A) l : k <> k' -> set_nth k v (set_nth k' w l) = set_nth k' w (set_nth k v l).
Proof. revert k k'. induction l as [|x l IH]; intros [|k] [|k'] H; cbn; try reflexivity; try lia. f_equal. apply IH. lia. Qed.
Lemma set_nth_twice {A} k (v w : A) l : set_nth k v (set_nth k w l) = set_nth k v l.
Proof. revert k. induction l as [|x l IH]; intros [|k]; cbn; try reflexivity. f_equal. apply IH. Qed.
Lemma set_nth_id {A} k l (d : A) : set_nth k (nth k l d) l = l.
Proof. revert k. induction l as [|x l IH]; intros [|k]; cbn; try reflexivity. f_equal. apply IH. Qed.

Lemma inb_length sh idx : inb sh idx -> length idx = length sh.
Proof. unfold inb. induction 1; cbn; congruence. Qed.
Lemma inb_nth sh idx k : inb sh idx -> (k < length sh)%nat -> (nth k idx 0 < nth k sh 0)%nat.
Proof.
  intros H. revert k. induction H as [|i n idx sh Hi _ IH]; intros [|k] Hk; cbn in *; try lia. apply IH. lia.
Qed.
Lemma inb_set sh idx k j : inb sh idx -> (j < nth k sh 0)%nat -> inb sh (set_nth k j idx).
Proof.
  intros H. revert k. induction H as [|i n idx sh Hi HF IH]; intros [|k] Hj; cbn in *; try constructor; try assumption; try lia. apply IH, Hj.
Qed.

(* ---------------------------------------------------------- sums over index tuples *)
Lemma asum_ext sh f g : (forall idx, inb sh idx -> f idx = g idx) -> asum sh f = asum sh g.
Proof.
  revert f g. induction sh as [|n sh IH]; intros f g H; cbn [asum]; [apply H; constructor|].
  apply rsum_ext. intros i Hi. apply IH. intros idx Hidx. apply H. constructor; assumption.
Qed.
Lemma asum_plus sh f g : asum sh (fun idx => f idx + g idx) = asum sh f + asum sh g.
Proof. revert f g. induction sh as [|n sh IH]; intros f g; cbn [asum]; [reflexivity|]. rewrite <- rsum_plus. apply rsum_ext. intros i _. apply IH. Qed.
Lemma asum_scal sh c f : asum sh (fun idx => c * f idx) = c * asum sh f.
Proof. revert f. induction sh as [|n sh IH]; intros f; cbn [asum]; [reflexivity|]. rewrite <- rsum_scal. apply rsum_ext. intros i _. apply IH. Qed.
Lemma asum_scal_r sh c f : asum sh (fun idx => f idx * c) = asum sh f * c.
Proof. rewrite Rmult_comm, <- asum_scal. apply asum_ext. intros; ring. Qed.
Lemma asum_nonneg sh f : (forall idx, inb sh idx -> 0 <= f idx) -> 0 <= asum sh f.
Proof. revert f. induction sh as [|n sh IH]; intros f H; cbn [asum]; [apply H; constructor|]. apply rsum_nonneg. intros i Hi. apply IH. intros idx Hx. apply H. constructor; assumption. Qed.
Lemma asum_zero sh f : (forall idx, inb sh idx -> f idx = 0) -> asum sh f = 0.
Proof. revert f. induction sh as [|n sh IH]; intros f H; cbn [asum]; [apply H; constructor|]. apply rsum_zero_ext. intros i Hi. apply IH. intros idx Hx. apply H. constructor; assumption. Qed.
Lemma asum_rsum sh n f : asum sh (fun idx => rsum n (fun j => f j idx)) = rsum n (fun j => asum sh (f j)).
Proof.
  revert f. induction sh as [|m sh IH]; intros f; cbn [asum]; [reflexivity|]. rewrite (rsum_ext m _ (fun i => rsum n (fun j => asum sh (fun idx => f j (i :: idx))))).
  - apply rsum_swap.
  - intros i _. apply IH.
Qed.

Lemma inb_all_idx sh idx : In idx (all_idx sh) <-> inb sh idx.
Proof.
  revert idx. induction sh as [|n sh IH]; intros idx; cbn [all_idx].
  - split; [intros [<-|[]]; constructor|]. intros H. inversion H. left. reflexivity.
  - rewrite in_flat_map. split.
    + intros [i [Hi H]]. apply in_map_iff in H. destruct H as [r [<- Hr]]. constructor; [apply in_seq in Hi; lia|apply IH, Hr].
    + intros H. inversion H as [|i m r sh' Hi Hr]; subst. exists i. split; [apply in_seq; lia|]. apply in_map, IH, Hr.
Qed.
Lemma sumf_flat_map {A B} (f : B -> R) (g : A -> list B) l : sumf f (flat_map g l) = sumf (fun a => sumf f (g a)) l.
Proof. induction l as [|a l IH]; [reflexivity|]. cbn [flat_map]. rewrite sumf_app, sumf_cons, IH. reflexivity. Qed.
Lemma sumf_seq (f : nat -> R) n : sumf f (seq 0 n) = rsum n f.
Proof. unfold sumf. apply lsum_map_seq. Qed.
(** The sum over all index tuples is the sum over their list. *)
Lemma asum_list sh f : asum sh f = sumf f (all_idx sh).
Proof.
  revert f. induction sh as [|n sh IH]; intros f; cbn [asum all_idx]; [unfold sumf; cbn; ring|].
  rewrite sumf_flat_map, sumf_seq. apply rsum_ext. intros i _. rewrite IH, sumf_map. reflexivity.
Qed.

(* ---------------------------------------------------------- cumsum *)
Lemma cumsum_ax_shape k a : shp (cumsum_ax k a) = shp a.
Proof. reflexivity. Qed.

(** Cumulative sums over the axes k, ..., nd-1 done: sums over the tuples that agree before k. *)
Definition psum (a : nda) (k : nat) (idx : list nat) : R :=
  asum (map S (skipn k idx)) (fun t => at_ a (firstn k idx ++ t)).

Lemma firstn_set_nth k j (idx : list nat) : (k < length idx)%nat -> firstn (S k) (set_nth k j idx) = firstn k idx ++ [j].
Proof. revert k. induction idx as [|i idx IH]; intros [|k] H; cbn in *; try lia; [reflexivity|]. f_equal. apply IH. lia. Qed.
Lemma skipn_set_nth k j (idx : list nat) : skipn (S k) (set_nth k j idx) = skipn (S k) idx.
Proof. revert k. induction idx as [|i idx IH]; intros [|k]; try reflexivity. cbn [set_nth]. change (skipn (S k) (set_nth k j idx) = skipn (S k) idx). apply IH. Qed.
Lemma skipn_nth_cons k (idx : list nat) : (k < length idx)%nat -> skipn k idx = nth k idx 0%nat :: skipn (S k) idx.
Proof. revert k. induction idx as [|i idx IH]; intros [|k] H; cbn in H; try lia; [reflexivity|]. cbn [skipn nth]. rewrite IH by lia. reflexivity. Qed.

Lemma cumsum_fold a m : (m <= length (shp a))%nat ->
  let r := fold_left (fun b ii => cumsum_ax (length (shp a) - ii) b) (seq 1 m) a in
  shp r = shp a /\ forall idx, length idx = length (shp a) -> at_ r idx = psum a (length (shp a) - m) idx.
Proof.
  induction m as [|m IH]; intros Hm; cbv zeta.
  - cbn [seq fold_left]. split; [reflexivity|]. intros idx Hl. unfold psum. rewrite Nat.sub_0_r, <- Hl, skipn_all, firstn_all. cbn. rewrite app_nil_r. reflexivity.
  - rewrite seq_S, fold_left_app. cbn [fold_left]. destruct (IH ltac:(lia)) as [H1 H2]. set (r := fold_left _ (seq 1 m) a) in *.
    split; [rewrite cumsum_ax_shape; exact H1|]. intros idx Hl. cbn [cumsum_ax at_]. cbn [plus]. set (k := (length (shp a) - S m)%nat).
    assert (Hk : (k < length idx)%nat) by (unfold k; lia).
    unfold psum at 1. rewrite (skipn_nth_cons k idx Hk). cbn [map asum]. apply rsum_ext. intros j Hj.
    rewrite H2 by (rewrite set_nth_length; exact Hl). unfold psum. replace (length (shp a) - m)%nat with (S k) by (unfold k; lia).
    rewrite skipn_set_nth, firstn_set_nth by exact Hk. apply asum_ext. intros t _. rewrite <- app_assoc. reflexivity.
Qed.

(** A sum over the tuples below [idx] as a sum over the whole shape. *)
Lemma asum_below sh idx f : inb sh idx -> asum (map S idx) f = asum sh (fun j => if le_idxb j idx then f j else 0).
Proof.
  intros H. revert f. induction H as [|i n idx sh Hi _ IH]; intros f; cbn [map asum]; [reflexivity|].
  rewrite (rsum_trunc (S i) n); [|lia|intros k Hk; apply asum_zero; intros j _; cbn [le_idxb]; destruct (Nat.leb_spec k i); [lia|reflexivity]].
  apply rsum_ext. intros k Hk. rewrite IH. apply asum_ext. intros j _. cbn [le_idxb]. destruct (Nat.leb_spec k i); [reflexivity|lia].
Qed.
Lemma le_idxb_spec i j : le_idxb i j = true <-> le_idx i j.
Proof.
  unfold le_idx. revert j. induction i as [|a i IH]; intros [|b j]; cbn; split; intros H; try discriminate H; try (inversion H; fail); try constructor.
  - apply andb_true_iff in H. destruct H as [H _]. apply Nat.leb_le, H.
  - apply andb_true_iff in H. destruct H as [_ H]. apply IH, H.
  - inversion H; subst. apply andb_true_iff. split; [apply Nat.leb_le; assumption|apply IH; assumption].
Qed.

(** C40 *)
Theorem cumsum_all a : exists r, cumsum_nd a None = Ok r /\ shp r = shp a
  /\ forall idx, inb (shp a) idx -> at_ r idx = sumf (at_ a) (filter (fun j => le_idxb j idx) (all_idx (shp a))).
Proof.
  unfold cumsum_nd. eexists. split; [reflexivity|]. destruct (cumsum_fold a (length (shp a)) ltac:(lia)) as [H1 H2]. split; [exact H1|].
  intros idx Hi. rewrite H2 by (apply inb_length, Hi). unfold psum. rewrite Nat.sub_diag. cbn [skipn firstn app].
  rewrite (asum_below (shp a)) by exact Hi. rewrite asum_list. generalize (all_idx (shp a)). intros l. induction l as [|x l IH]; [reflexivity|].
  rewrite sumf_cons, IH. cbn [filter]. destruct (le_idxb x idx); [reflexivity|]. ring.
Qed.
Theorem cumsum_axis a k : (k < length (shp a))%nat -> exists r, cumsum_nd a (Some (Z.of_nat k)) = Ok r /\ cumsum_nd a (Some (Z.of_nat k - Z.of_nat (length (shp a)))%Z) = Ok r
  /\ shp r = shp a
  /\ forall idx, at_ r idx = rsum (S (nth k idx 0%nat)) (fun j => at_ a (set_nth k j idx)).
Proof.
  intros Hk. exists (cumsum_ax k a). unfold cumsum_nd, norm_axis. split; [|split; [|split; reflexivity]].
  - destruct (Z.leb_spec 0 (Z.of_nat k)), (Z.ltb_spec (Z.of_nat k) (Z.of_nat (length (shp a)))); try lia. cbn [andb]. rewrite Nat2Z.id. reflexivity.
  - destruct (Z.leb_spec 0 (Z.of_nat k - Z.of_nat (length (shp a)))); [lia|]. cbn [andb].
    destruct (Z.leb_spec (- Z.of_nat (length (shp a))) (Z.of_nat k - Z.of_nat (length (shp a)))); [|lia].
    destruct (Z.ltb_spec (Z.of_nat k - Z.of_nat (length (shp a))) 0); [|lia]. cbn [andb].
    replace (Z.of_nat (length (shp a)) + (Z.of_nat k - Z.of_nat (length (shp a))))%Z with (Z.of_nat k) by lia. rewrite Nat2Z.id. reflexivity.
Qed.
Theorem cumsum_bad_axis a z : (z < - Z.of_nat (length (shp a)) \/ Z.of_nat (length (shp a)) <= z)%Z -> cumsum_nd a (Some z) = Err ValueError.
Proof.
  intros H. unfold cumsum_nd, norm_axis. destruct (Z.leb_spec 0 z), (Z.ltb_spec z (Z.of_nat (length (shp a)))); cbn [andb]; try lia.
  all: destruct (Z.leb_spec (- Z.of_nat (length (shp a))) z), (Z.ltb_spec z 0); cbn [andb]; try lia; reflexivity.
Qed.

(** Proofs about sample.py: bins are chosen proportionally to their mass. *)
From Coq Require Import ZArith Permutation.
From Verif Require Import Base ModelLinAlg ModelKernels ModelKDE ModelInterp ModelResample ModelUtils ModelNd ModelSample
  SpecUtils SpecNd SpecSample ProofInterp ProofUtils ProofUtils2 ProofUtils4 ProofNested ProofNd ProofNd2 ProofGrid ProofGrid2.
Open Scope R_scope.
Notation length := List.length.

(* ------------------------------------------------------------ np.sort *)
Lemma insert_perm x l : Permutation (x :: l) (insert_val x l).
Proof.
  induction l as [|y l IH]; cbn [insert_val]; [apply Permutation_refl|]. destruct (Rleb x y); [apply Permutation_refl|].
  eapply Permutation_trans; [apply perm_swap|]. apply perm_skip, IH.
Qed.
Lemma sort_perm l : Permutation l (np_sort l).
Proof. induction l as [|x l IH]; cbn; [constructor|]. eapply Permutation_trans; [apply perm_skip, IH|apply insert_perm]. Qed.
Fixpoint chain (l : list R) : Prop := match l with x :: ((y :: _) as r) => x <= y /\ chain r | _ => True end.
Lemma chain_insert x l : chain l -> chain (insert_val x l).
Proof.
  induction l as [|y l IH]; [cbn; auto|]. intros H. cbn [insert_val]. destruct (Rleb_spec x y) as [Hxy|Hxy].
  - cbn. split; [exact Hxy|exact H].
  - assert (H' : chain l) by (destruct l; [exact I|apply H]). specialize (IH H'). destruct l as [|z l].
    + cbn. split; [lra|exact I].
    + cbn [insert_val] in *. destruct (Rleb x z); cbn in *; (split; [lra|]); tauto.
Qed.
Lemma chain_sort l : chain (np_sort l).
Proof. induction l as [|x l IH]; cbn; [exact I|]. apply chain_insert, IH. Qed.
Lemma chain_nondecr l : chain l -> nondecr_list l.
Proof.
  intros H. assert (St : forall l, chain l -> forall i, (S i < length l)%nat -> nth i l 0 <= nth (S i) l 0).
  { clear. induction l as [|x l IH]; intros H i Hi; [cbn in Hi; lia|]. destruct l as [|y l]; [cbn in Hi; lia|].
    destruct H as [H1 H2]. destruct i as [|i]; [exact H1|]. apply (IH H2). cbn in *. lia. }
  intros i j Hij Hj. revert i Hij. induction j as [|j IH]; intros i Hij; [replace i with 0%nat by lia; lra|].
  destruct (Nat.eq_dec i (S j)) as [->|]; [lra|]. eapply Rle_trans; [apply IH; lia|apply St; assumption].
Qed.
Lemma np_sort_spec l : sorted_of l (np_sort l).
Proof. split; [apply sort_perm|apply chain_nondecr, chain_sort]. Qed.
Lemma np_sort_length l : length (np_sort l) = length l.
Proof. symmetry. apply Permutation_length, sort_perm. Qed.

(* ------------------------------------------------------------ flat and multi indices *)
Lemma unravel_inb sh f : (f < size_of_shape sh)%nat -> inb sh (unravel sh f) /\ ravel sh (unravel sh f) = f.
Proof.
  revert f. induction sh as [|n r IH]; intros f Hf; cbn [unravel ravel size_of_shape fold_right] in *.
  - split; [constructor|lia].
  - change (fold_right Nat.mul 1%nat r) with (size_of_shape r) in *.
    assert (Hs : (size_of_shape r <> 0)%nat) by nia.
    destruct (IH (f mod size_of_shape r)%nat) as [H1 H2]; [apply Nat.mod_upper_bound, Hs|].
    split.
    + constructor; [|exact H1]. apply Nat.div_lt_upper_bound; [exact Hs|lia].
    + rewrite H2. pose proof (Nat.div_mod f _ Hs). lia.
Qed.
Lemma ravel_unravel sh idx : inb sh idx -> unravel sh (ravel sh idx) = idx.
Proof.
  intros H. induction H as [|i n idx sh Hi Hr IH]; [reflexivity|]. cbn [ravel unravel]. pose proof (ravel_lt _ _ Hr) as Hlt.
  rewrite (Nat.add_comm (i * _)), Nat.div_add, Nat.mod_add by lia. rewrite Nat.div_small, Nat.mod_small by exact Hlt. cbn. rewrite IH. reflexivity.
Qed.
Lemma flat_unravel a f : (f < size_of_shape (shp a))%nat -> vget (flatten_nd a) f = at_ a (unravel (shp a) f).
Proof. intros H. destruct (unravel_inb _ _ H) as [H1 H2]. rewrite <- (flatten_nth a _ H1), H2. reflexivity. Qed.
Lemma asum_flat a : asum (shp a) (at_ a) = lsum (flatten_nd a).
Proof. rewrite asum_list. unfold sumf, flatten_nd. reflexivity. Qed.
Lemma inbb_spec sh idx : inbb sh idx = true <-> inb sh idx.
Proof.
  revert idx. induction sh as [|n sh IH]; intros [|i idx]; cbn; split; intros H; try discriminate; try constructor; try (inversion H; fail).
  - apply Bool.andb_true_iff in H. destruct H as [H1 H2]. apply Nat.ltb_lt in H1. exact H1.
  - apply Bool.andb_true_iff in H. apply IH, H.
  - inversion H; subst. apply Bool.andb_true_iff. split; [apply Nat.ltb_lt; assumption|apply IH; assumption].
Qed.

(* ------------------------------------------------------------ positions in a permutation *)
Fixpoint index_of (b : nat) (l : list nat) : nat := match l with [] => 0 | x :: r => if Nat.eqb x b then 0 else S (index_of b r) end.
Lemma index_of_In b l : In b l -> (index_of b l < length l)%nat /\ nth (index_of b l) l 0%nat = b.
Proof.
  induction l as [|x l IH]; [intros []|]. intros H. cbn. destruct (Nat.eqb_spec x b) as [->|N]; [cbn; split; [lia|reflexivity]|].
  destruct H as [E|H]; [congruence|]. destruct (IH H). split; [lia|assumption].
Qed.
Lemma rsum_vget l : rsum (length l) (vget l) = lsum l.
Proof. induction l as [|x l IH]; [reflexivity|]. cbn [length]. rewrite rsum_shift. cbn. rewrite <- IH. reflexivity. Qed.

(* ------------------------------------------------------------ the cumulative distribution *)
(** Partial sums of the masses in the order of [ord]. *)
Definition psum (m : list R) (ord : list nat) (k : nat) : R := rsum k (fun i => vget m (nth i ord 0%nat)).
Lemma psum_total m ord : Permutation ord (seq 0 (length m)) -> psum m ord (length m) = lsum m.
Proof.
  intros H. assert (L : length ord = length m) by (rewrite (Permutation_length H); apply seq_length).
  unfold psum. rewrite <- L. transitivity (sumf (vget m) ord).
  - clear. induction ord as [|x l IH]; [reflexivity|]. cbn [length]. rewrite rsum_shift. cbn. rewrite IH. reflexivity.
  - rewrite (sumf_perm _ _ _ H), sumf_seq. apply rsum_vget.
Qed.
Lemma psum_mono m ord j k : (forall i, 0 <= vget m i) -> (j <= k)%nat -> psum m ord j <= psum m ord k.
Proof. intros H Hjk. induction Hjk as [|k _ IH]; [lra|]. unfold psum in *. cbn. specialize (H (nth k ord 0%nat)). lra. Qed.
Lemma vget_nonneg m i : (forall x, In x m -> 0 <= x) -> 0 <= vget m i.
Proof. intros H. unfold vget. destruct (lt_dec i (length m)) as [L|L]; [apply H, nth_In, L|rewrite nth_overflow by lia; lra]. Qed.
Lemma last_nth {A} (l : list A) d : last l d = nth (length l - 1) l d.
Proof. induction l as [|x l IH]; [reflexivity|]. destruct l as [|y l]; [reflexivity|]. cbn [length] in *. replace (S (S (length l)) - 1)%nat with (S (S (length l) - 1)) by lia. cbn [nth]. exact IH. Qed.
Lemma cum_values ord mass idx cs : is_argsort ord -> data_to_cumulative ord mass = Ok (idx, cs) ->
  let m := flatten_nd mass in m <> [] /\ idx = ord m /\ Permutation idx (seq 0 (length m)) /\ length idx = length m /\ length cs = S (length m)
  /\ forall k, (k <= length m)%nat -> vget cs k = psum m idx k / (if Reqb (lsum m) 0 then 1 else lsum m).
Proof.
  intros Ho H. cbv zeta. set (m := flatten_nd mass) in *. unfold data_to_cumulative in H. fold m in H. cbv zeta in H.
  destruct (Ho m) as [Hp _].
  assert (L : length (ord m) = length m) by (rewrite (Permutation_length Hp); apply seq_length).
  destruct m as [|a m0] eqn:E; [discriminate|]. rewrite <- E in *. injection H as <- <-. split; [congruence|]. split; [reflexivity|]. split; [exact Hp|]. split; [exact L|].
  assert (CL : length (cumsum1 (map (vget m) (ord m))) = length m) by (rewrite cumsum1_length, map_length; exact L).
  split; [cbn; rewrite map_length, CL; reflexivity|].
  assert (V : forall i, (i < length m)%nat -> vget (cumsum1 (map (vget m) (ord m))) i = psum m (ord m) (S i)).
  { intros i Hi. rewrite cumsum1_nth by (rewrite map_length; lia). unfold psum. apply rsum_ext. intros j Hj. unfold vget.
    rewrite (nth_indep _ 0 ((fun i => nth i m 0) 0%nat)) by (rewrite map_length; lia). rewrite (map_nth (fun i => nth i m 0)). reflexivity. }
  assert (T : last (cumsum1 (map (vget m) (ord m))) 0 = lsum m).
  { rewrite last_nth, CL. change (nth ?a ?b 0) with (vget b a). assert (length m <> 0%nat) by (rewrite E; cbn; lia).
    rewrite V by lia. replace (S (length m - 1)) with (length m) by lia. apply psum_total, Hp. }
  intros k Hk. rewrite T. destruct k as [|k].
  - unfold vget, psum. cbn. unfold Rdiv. ring.
  - unfold vget at 1. cbn [nth]. set (q := if Reqb (lsum m) 0 then 1 else lsum m).
    rewrite (nth_indep _ 0 ((fun c => c / q) 0)) by (rewrite map_length; lia). rewrite (map_nth (fun c => c / q)).
    change (nth ?a ?b 0) with (vget b a). rewrite V by lia. reflexivity.
Qed.

Lemma match_ne (l : list nat) : l <> [] -> match l with [] => Err IndexError | _ => Ok (last l 0%nat) end = Ok (last l 0%nat).
Proof. destruct l; [congruence|reflexivity]. Qed.
Section Choice.
  Context (m : list R) (idx : list nat) (cs : list R).
  Context (Hm : forall x, In x m -> 0 <= x) (HS : 0 < lsum m) (Hp : Permutation idx (seq 0 (length m)))
          (Hl : length cs = S (length m)) (Hc : forall k, (k <= length m)%nat -> vget cs k = psum m idx k / lsum m).

  Definition lo_of (b : nat) : R := vget cs (index_of b idx).
  Definition hi_of (b : nat) : R := vget cs (S (index_of b idx)).

  Lemma idx_len : length idx = length m.
  Proof. rewrite (Permutation_length Hp); apply seq_length. Qed.
  Lemma cs_mono j k : (j <= k)%nat -> (k <= length m)%nat -> vget cs j <= vget cs k.
  Proof.
    intros H1 H2. rewrite !Hc by lia. apply Rmult_le_compat_r; [left; apply Rinv_0_lt_compat, HS|].
    apply psum_mono; [intros; apply vget_nonneg, Hm|exact H1].
  Qed.
  Lemma cs_first : vget cs 0 = 0.
  Proof. rewrite Hc by lia. unfold psum. cbn. field. lra. Qed.
  Lemma cs_last : vget cs (length m) = 1.
  Proof. rewrite Hc by lia. rewrite psum_total by exact Hp. field. lra. Qed.
  Lemma in_idx b : (b < length m)%nat -> (index_of b idx < length m)%nat /\ nth (index_of b idx) idx 0%nat = b.
  Proof.
    intros H. rewrite <- idx_len. apply index_of_In. eapply Permutation_in; [apply Permutation_sym, Hp|]. apply in_seq. lia.
  Qed.
  Lemma lo_hi b : (b < length m)%nat -> 0 <= lo_of b <= hi_of b /\ hi_of b <= 1 /\ hi_of b - lo_of b = vget m b / lsum m.
  Proof.
    intros H. destruct (in_idx b H) as [H1 H2]. unfold lo_of, hi_of. rewrite <- cs_first at 1. rewrite <- cs_last at 1. split; [split; apply cs_mono; lia|].
    split; [apply cs_mono; lia|]. rewrite !Hc by lia. unfold psum. cbn [rsum]. rewrite H2. field. lra.
  Qed.
  Lemma bin_between u k : 0 < u -> (k < length m)%nat -> vget cs k < u <= vget cs (S k) -> random_bin idx cs u = Ok (nth k idx 0%nat).
  Proof.
    intros Hu Hk Hb. unfold random_bin, searchsorted. destruct (ssleft_spec (vget cs) u (length cs) 0) as (H1 & H2 & H3). rewrite Hl in *.
    set (s := ssleft (vget cs) u (S (length m)) 0) in *.
    assert (Es : s = S k).
    { destruct (Nat.lt_trichotomy s (S k)) as [L|[E|L]]; [|exact E|].
      - specialize (H3 ltac:(lia)). pose proof (cs_mono s k ltac:(lia) ltac:(lia)). lra.
      - specialize (H2 (S k) ltac:(lia)). lra. }
    rewrite Es. pose proof idx_len. rewrite (nth_error_nth' idx 0%nat) by lia. reflexivity.
  Qed.
  Lemma bin_exists u : 0 < u <= 1 -> exists k, (k < length m)%nat /\ vget cs k < u <= vget cs (S k).
  Proof.
    intros Hu. destruct (ssleft_spec (vget cs) u (length cs) 0) as (H1 & H2 & H3). rewrite Hl in *.
    set (s := ssleft (vget cs) u (S (length m)) 0) in *. pose proof cs_first. pose proof cs_last.
    assert (Hs : (s <= length m)%nat). { destruct (le_lt_dec s (length m)); [assumption|]. specialize (H2 (length m) ltac:(lia)). lra. }
    specialize (H3 ltac:(lia)). destruct s as [|k] eqn:E; [lra|]. exists k. split; [lia|]. split; [apply H2; lia|exact H3].
  Qed.
  Lemma bin_iff u b : 0 < u <= 1 -> (b < length m)%nat -> (random_bin idx cs u = Ok b <-> lo_of b < u <= hi_of b).
  Proof.
    intros Hu Hb. destruct (in_idx b Hb) as [H1 H2]. split.
    - intros H. destruct (bin_exists u Hu) as (k & Hk & Hb'). rewrite (bin_between u k) in H by tauto. injection H as H.
      assert (E : index_of b idx = k).
      { assert (ND : NoDup idx) by (eapply Permutation_NoDup; [apply Permutation_sym, Hp|apply seq_NoDup]).
        apply (proj1 (NoDup_nth idx 0%nat) ND); rewrite ?idx_len; congruence. }
      unfold lo_of, hi_of. rewrite E. exact Hb'.
    - intros H. rewrite <- H2 at 1. apply bin_between; tauto.
  Qed.
  Lemma bin_total u : 0 < u <= 1 -> exists b, (b < length m)%nat /\ random_bin idx cs u = Ok b.
  Proof.
    intros Hu. destruct (bin_exists u Hu) as (k & Hk & Hb'). exists (nth k idx 0%nat). rewrite (bin_between u k) by tauto. split; [|reflexivity].
    assert (I : In (nth k idx 0%nat) (seq 0 (length m))) by (eapply Permutation_in; [exact Hp|apply nth_In; rewrite idx_len; exact Hk]). apply in_seq in I. lia.
  Qed.
  (** The number zero: the last bin of the order. *)
  Lemma bin_zero : random_bin idx cs 0 = Ok (nth (length m - 1) idx 0%nat) /\ (nth (length m - 1) idx 0 < length m)%nat.
  Proof.
    assert (N : length m <> 0%nat) by (intros E; apply length_zero_iff_nil in E; subst; cbn in HS; lra).
    split.
    - unfold random_bin, searchsorted. rewrite Hl. cbn [ssleft]. rewrite cs_first. destruct (Rleb_spec 0 0) as [_|C]; [|lra].
      rewrite match_ne by (intros E; pose proof idx_len as L; apply (f_equal (@List.length nat)) in E; cbn in E; lia). rewrite last_nth, idx_len. reflexivity.
    - assert (I : In (nth (length m - 1) idx 0%nat) (seq 0 (length m))) by (eapply Permutation_in; [exact Hp|apply nth_In; rewrite idx_len; lia]). apply in_seq in I. lia.
  Qed.
End Choice.

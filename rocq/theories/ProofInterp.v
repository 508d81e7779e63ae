(** Facts about piecewise linear interpolation. *)
From Verif Require Import Base ModelInterp.
Open Scope R_scope.

Definition increasing (x : nat -> R) (m : nat) : Prop := forall i j, (i < j)%nat -> (j <= m)%nat -> x i < x j.
Definition nondecreasing (y : nat -> R) (m : nat) : Prop := forall i j, (i <= j)%nat -> (j <= m)%nat -> y i <= y j.

Lemma incr_nondecr x m : increasing x m -> nondecreasing x m.
Proof. intros H i j Hij Hj. destruct (Nat.eq_dec i j) as [->|]; [lra|]. left. apply H; lia. Qed.

Lemma step_incr x m : (forall i, (i < m)%nat -> x i < x (S i)) -> increasing x m.
Proof.
  intros H i j Hij Hj. induction j as [|j IH]; [lia|].
  destruct (Nat.eq_dec i j) as [->|]; [apply H; lia|]. eapply Rlt_trans; [apply IH; lia|apply H; lia].
Qed.
Lemma step_nondecr x m : (forall i, (i < m)%nat -> x i <= x (S i)) -> nondecreasing x m.
Proof.
  intros H i j Hij Hj. induction j as [|j IH]; [replace i with O by lia; lra|].
  destruct (Nat.eq_dec i (S j)) as [->|]; [lra|]. eapply Rle_trans; [apply IH; lia|apply H; lia].
Qed.

Lemma ssleft_spec x v n i : let k := ssleft x v n i in
  (i <= k <= i + n)%nat /\ (forall j, (i <= j < k)%nat -> x j < v) /\ ((k < i + n)%nat -> v <= x k).
Proof.
  revert i. induction n as [|n IH]; intros i; cbn.
  - repeat split; intros; lia.
  - destruct (Rleb_spec v (x i)).
    + repeat split; intros; try lia; auto.
    + destruct (IH (S i)) as (H1 & H2 & H3). cbn in *. repeat split; try lia.
      * intros j Hj. destruct (Nat.eq_dec j i) as [->|]; [lra|]. apply H2; lia.
      * intros Hk. apply H3. lia.
Qed.


Lemma interp_bin_spec x m v : (1 <= m)%nat -> nondecreasing x m -> x O <= v <= x m ->
  let lo := interp_bin x m v in (lo < m)%nat /\ x lo <= v <= x (S lo).
Proof.
  intros Hm Hx Hv. cbv zeta. unfold interp_bin.
  destruct (ssleft_spec x v (S m) 0) as (H1 & H2 & H3). set (k := ssleft x v (S m) 0) in *.
  assert (Hk : (k <= m)%nat).
  { destruct (le_lt_dec k m); [assumption|]. specialize (H2 m ltac:(lia)). lra. }
  specialize (H3 ltac:(lia)).
  destruct (Nat.eq_dec k 0) as [E|E].
  - rewrite E. replace (Nat.min (Nat.max 0 1) m - 1)%nat with O by lia. split; [lia|].
    rewrite E in H3. pose proof (Hx 0%nat 1%nat ltac:(lia) ltac:(lia)). lra.
  - replace (Nat.min (Nat.max k 1) m - 1)%nat with (k - 1)%nat by lia. split; [lia|].
    replace (S (k - 1)) with k by lia. specialize (H2 (k-1)%nat ltac:(lia)). lra.
Qed.

Lemma interp_between x y m v : (1 <= m)%nat -> increasing x m -> nondecreasing y m -> x O <= v <= x m ->
  let lo := interp_bin x m v in y lo <= interp x y m v <= y (S lo).
Proof.
  intros Hm Hx Hy Hv. destruct (interp_bin_spec x m v Hm (incr_nondecr _ _ Hx) Hv) as [Hlo Hin].
  cbv zeta. unfold interp. set (lo := interp_bin x m v) in *.
  pose proof (Hx lo (S lo) ltac:(lia) ltac:(lia)). pose proof (Hy lo (S lo) ltac:(lia) ltac:(lia)).
  set (dy := y (S lo) - y lo) in *. set (dx := x (S lo) - x lo) in *.
  assert (Hdx : 0 < dx) by (unfold dx; lra). assert (Hdy : 0 <= dy) by (unfold dy; lra).
  assert (E : dy / dx * (v - x lo) = dy * ((v - x lo) / dx)) by (field; lra). rewrite E.
  assert (0 <= (v - x lo) / dx <= 1).
  { split; [apply Rmult_le_pos; [lra|left; apply Rinv_0_lt_compat; lra]|].
    apply Rmult_le_reg_r with dx; [assumption|]. unfold Rdiv. rewrite Rmult_assoc, Rinv_l by lra. unfold dx; lra. }
  replace (y (S lo)) with (y lo + dy) by (unfold dy; ring). nra.
Qed.

Lemma interp_range x y m v : (1 <= m)%nat -> increasing x m -> nondecreasing y m -> x O <= v <= x m ->
  y O <= interp x y m v <= y m.
Proof.
  intros Hm Hx Hy Hv. pose proof (interp_between x y m v Hm Hx Hy Hv) as H. cbv zeta in H.
  destruct (interp_bin_spec x m v Hm (incr_nondecr _ _ Hx) Hv) as [Hlo _].
  pose proof (Hy O (interp_bin x m v) ltac:(lia) ltac:(lia)).
  pose proof (Hy (S (interp_bin x m v)) m ltac:(lia) ltac:(lia)). lra.
Qed.

(** Interpolation in any interval containing the value gives the same result. *)
Lemma interp_in x y m v k : increasing x m -> (k < m)%nat -> x k <= v <= x (S k) ->
  interp x y m v = y k + (y (S k) - y k) / (x (S k) - x k) * (v - x k).
Proof.
  intros Hx Hk Hv.
  assert (Hn := incr_nondecr _ _ Hx).
  assert (Hb : x O <= v <= x m).
  { pose proof (Hn O k ltac:(lia) ltac:(lia)). pose proof (Hn (S k) m ltac:(lia) ltac:(lia)). lra. }
  destruct (interp_bin_spec x m v ltac:(lia) Hn Hb) as [Hlo Hin]. unfold interp.
  set (lo := interp_bin x m v) in *. clearbody lo.
  destruct (lt_eq_lt_dec lo k) as [[H|H]|H].
  - pose proof (Hn (S lo) k ltac:(lia) ltac:(lia)). assert (v = x (S lo)) by lra.
    assert (x (S lo) = x k) by lra.
    assert (S lo = k) as <-. { destruct (Nat.eq_dec (S lo) k); [assumption|]. pose proof (Hx (S lo) k ltac:(lia) ltac:(lia)). lra. }
    pose proof (Hx lo (S lo) ltac:(lia) ltac:(lia)). pose proof (Hx (S lo) (S (S lo)) ltac:(lia) ltac:(lia)).
    subst v. field. split; lra.
  - rewrite H. reflexivity.
  - pose proof (Hn (S k) lo ltac:(lia) ltac:(lia)). assert (v = x (S k)) by lra.
    assert (x (S k) = x lo) by lra.
    assert (S k = lo) as <-. { destruct (Nat.eq_dec (S k) lo); [assumption|]. pose proof (Hx (S k) lo ltac:(lia) ltac:(lia)). lra. }
    pose proof (Hx k (S k) ltac:(lia) ltac:(lia)). pose proof (Hx (S k) (S (S k)) ltac:(lia) ltac:(lia)).
    subst v. field. split; lra.
Qed.

Lemma interp_knot x y m i : (1 <= m)%nat -> increasing x m -> (i <= m)%nat -> interp x y m (x i) = y i.
Proof.
  intros Hm Hx Hi. destruct (Nat.eq_dec i m) as [->|Hne].
  - destruct m as [|m]; [lia|]. rewrite (interp_in x y (S m) (x (S m)) m Hx ltac:(lia)).
    + pose proof (Hx m (S m) ltac:(lia) ltac:(lia)). field. lra.
    + pose proof (Hx m (S m) ltac:(lia) ltac:(lia)). lra.
  - rewrite (interp_in x y m (x i) i Hx ltac:(lia)); [|pose proof (Hx i (S i) ltac:(lia) ltac:(lia)); lra].
    replace (x i - x i) with 0 by ring. ring.
Qed.

Lemma interp_mono x y m v w : (1 <= m)%nat -> increasing x m -> nondecreasing y m ->
  x O <= v -> v <= w -> w <= x m -> interp x y m v <= interp x y m w.
Proof.
  intros Hm Hx Hy H0 H1 H2. assert (Hn := incr_nondecr _ _ Hx).
  destruct (interp_bin_spec x m v Hm Hn ltac:(lra)) as [Hlv Hv].
  destruct (interp_bin_spec x m w Hm Hn ltac:(lra)) as [Hlw Hw].
  pose proof (interp_between x y m v Hm Hx Hy ltac:(lra)) as Bv.
  pose proof (interp_between x y m w Hm Hx Hy ltac:(lra)) as Bw. cbv zeta in Bv, Bw.
  set (lv := interp_bin x m v) in *. set (lw := interp_bin x m w) in *.
  destruct (lt_eq_lt_dec lv lw) as [[H|H]|H].
  - pose proof (Hy (S lv) lw ltac:(lia) ltac:(lia)). lra.
  - rewrite (interp_in x y m v lv Hx Hlv Hv). rewrite (interp_in x y m w lv Hx Hlv) by (rewrite H; exact Hw).
    pose proof (Hx lv (S lv) ltac:(lia) ltac:(lia)). pose proof (Hy lv (S lv) ltac:(lia) ltac:(lia)).
    assert (0 <= (y (S lv) - y lv) / (x (S lv) - x lv)).
    { apply Rmult_le_pos; [lra|left; apply Rinv_0_lt_compat; lra]. }
    nra.
  - pose proof (Hn (S lw) lv ltac:(lia) ltac:(lia)). assert (v = w) by lra. subst w. lra.
Qed.

Lemma interp_strict x y m v w : (1 <= m)%nat -> increasing x m -> increasing y m ->
  x O <= v -> v < w -> w <= x m -> interp x y m v < interp x y m w.
Proof.
  intros Hm Hx Hy H0 H1 H2. assert (Hn := incr_nondecr _ _ Hx). assert (Hyn := incr_nondecr _ _ Hy).
  destruct (interp_bin_spec x m v Hm Hn ltac:(lra)) as [Hlv Hv].
  set (lv := interp_bin x m v) in *.
  (* pick a point u in (v, min w (x (S lv))] within the same interval if possible *)
  destruct (Rlt_le_dec v (x (S lv))) as [Hlt|Hge].
  - set (u := Rmin w (x (S lv))). assert (Hu : v < u /\ u <= x (S lv) /\ u <= w).
    { unfold u. pose proof (Rmin_l w (x (S lv))). pose proof (Rmin_r w (x (S lv))).
      unfold Rmin in *; destruct (Rle_dec w (x (S lv))); lra. }
    apply Rlt_le_trans with (interp x y m u); [|apply interp_mono; auto; lra].
    rewrite (interp_in x y m v lv Hx Hlv ltac:(lra)), (interp_in x y m u lv Hx Hlv ltac:(lra)).
    pose proof (Hx lv (S lv) ltac:(lia) ltac:(lia)). pose proof (Hy lv (S lv) ltac:(lia) ltac:(lia)).
    assert (0 < (y (S lv) - y lv) / (x (S lv) - x lv)).
    { apply Rmult_lt_0_compat; [lra|apply Rinv_0_lt_compat; lra]. }
    nra.
  - assert (v = x (S lv)) by lra. assert (Hl : (S lv < m)%nat).
    { destruct (Nat.eq_dec (S lv) m) as [E|]; [|lia]. rewrite E in *. lra. }
    set (u := Rmin w (x (S (S lv)))).
    pose proof (Hx (S lv) (S (S lv)) ltac:(lia) ltac:(lia)). pose proof (Hy (S lv) (S (S lv)) ltac:(lia) ltac:(lia)).
    assert (Hu : v < u /\ u <= x (S (S lv)) /\ u <= w).
    { unfold u. pose proof (Rmin_l w (x (S (S lv)))). pose proof (Rmin_r w (x (S (S lv)))).
      unfold Rmin in *; destruct (Rle_dec w (x (S (S lv)))); lra. }
    apply Rlt_le_trans with (interp x y m u); [|apply interp_mono; auto; lra].
    rewrite (interp_in x y m v (S lv) Hx Hl ltac:(lra)), (interp_in x y m u (S lv) Hx Hl ltac:(lra)).
    assert (0 < (y (S (S lv)) - y (S lv)) / (x (S (S lv)) - x (S lv))).
    { apply Rmult_lt_0_compat; [lra|apply Rinv_0_lt_compat; lra]. }
    nra.
Qed.

(** numpy.interp. *)
Lemma np_interp_range x y m v : (1 <= m)%nat -> increasing x m -> nondecreasing y m ->
  y O <= np_interp x y m v <= y m.
Proof.
  intros Hm Hx Hy. unfold np_interp. pose proof (Hy O m ltac:(lia) ltac:(lia)).
  destruct (Rltb_spec v (x O)); [lra|]. destruct (Rltb_spec (x m) v); [lra|].
  apply interp_range; auto; lra.
Qed.
Lemma np_interp_mono x y m v w : (1 <= m)%nat -> increasing x m -> nondecreasing y m -> v <= w ->
  np_interp x y m v <= np_interp x y m w.
Proof.
  intros Hm Hx Hy Hvw. unfold np_interp. pose proof (Hy O m ltac:(lia) ltac:(lia)).
  pose proof (incr_nondecr _ _ Hx O m ltac:(lia) ltac:(lia)).
  destruct (Rltb_spec v (x O)), (Rltb_spec w (x O)); try lra;
  destruct (Rltb_spec (x m) w); try lra; destruct (Rltb_spec (x m) v); try lra.
  - apply interp_range; auto; lra.
  - apply interp_range; auto; lra.
  - apply interp_mono; auto; lra.
Qed.

(** Interpolating the inverse table undoes interpolating the table. *)
Lemma interp_inverse x y m v : (1 <= m)%nat -> increasing x m -> increasing y m -> x O <= v <= x m ->
  interp y x m (interp x y m v) = v.
Proof.
  intros Hm Hx Hy Hv. assert (Hn := incr_nondecr _ _ Hx). assert (Hyn := incr_nondecr _ _ Hy).
  destruct (interp_bin_spec x m v Hm Hn Hv) as [Hlv Hin].
  pose proof (interp_between x y m v Hm Hx Hyn Hv) as B. cbv zeta in B. set (lv := interp_bin x m v) in *.
  rewrite (interp_in y x m _ lv Hy Hlv B). rewrite (interp_in x y m v lv Hx Hlv Hin).
  pose proof (Hx lv (S lv) ltac:(lia) ltac:(lia)). pose proof (Hy lv (S lv) ltac:(lia) ltac:(lia)).
  field. split; lra.
Qed.

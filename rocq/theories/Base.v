(** Common vocabulary: exceptions as values, sums as loops, boolean comparisons on reals.
    Nothing in this file models a particular function of /repo; it is the language in which the
    Model*.v files are written. *)
From Coq Require Export Reals List Arith Lia Lra Bool.
From Coq Require Import Permutation.
Export ListNotations.
Open Scope R_scope.

(** Python exceptions that the modelled code can raise. *)
Inductive exn :=
| ValueError | TypeError | IndexError | AttributeError | RuntimeError | LinAlgError
| NotImplementedError | KeyError | ZeroDivisionError | AssertionError.

(** Result of a Python call: a value or an exception. *)
Inductive res (A : Type) :=
| Ok (a : A)
| Err (e : exn).
Arguments Ok {A} a.
Arguments Err {A} e.

Definition bind {A B : Type} (x : res A) (f : A -> res B) : res B :=
  match x with Ok a => f a | Err e => Err e end.
Notation "'do' x <- e1 ;; e2" := (bind e1 (fun x => e2))
  (at level 200, x name, e1 at level 100, e2 at level 200, right associativity).

Definition is_ok {A : Type} (x : res A) : bool := match x with Ok _ => true | Err _ => false end.

Fixpoint mapM {A B : Type} (f : A -> res B) (l : list A) : res (list B) :=
  match l with
  | [] => Ok []
  | x :: xs => do y <- f x ;; do ys <- mapM f xs ;; Ok (y :: ys)
  end.

(** Boolean comparisons of reals (numpy's [<], [<=], [==] on finite floats). *)
Definition Rltb (x y : R) : bool := if Rlt_dec x y then true else false.
Definition Rleb (x y : R) : bool := if Rle_dec x y then true else false.
Definition Reqb (x y : R) : bool := if Req_EM_T x y then true else false.

Lemma Rltb_spec x y : reflect (x < y) (Rltb x y).
Proof. unfold Rltb; destruct (Rlt_dec x y); constructor; assumption. Qed.
Lemma Rleb_spec x y : reflect (x <= y) (Rleb x y).
Proof. unfold Rleb; destruct (Rle_dec x y); constructor; assumption. Qed.
Lemma Reqb_spec x y : reflect (x = y) (Reqb x y).
Proof. unfold Reqb; destruct (Req_EM_T x y); constructor; assumption. Qed.
Lemma Rltb_true x y : Rltb x y = true <-> x < y.
Proof. destruct (Rltb_spec x y); split; intros; try discriminate; auto; contradiction. Qed.
Lemma Rltb_false x y : Rltb x y = false <-> y <= x.
Proof. destruct (Rltb_spec x y); split; intros; try discriminate; auto; lra. Qed.
Lemma Rleb_true x y : Rleb x y = true <-> x <= y.
Proof. destruct (Rleb_spec x y); split; intros; try discriminate; auto; contradiction. Qed.
Lemma Rleb_false x y : Rleb x y = false <-> y < x.
Proof. destruct (Rleb_spec x y); split; intros; try discriminate; auto; lra. Qed.
Lemma Reqb_true x y : Reqb x y = true <-> x = y.
Proof. destruct (Reqb_spec x y); split; intros; try discriminate; auto; contradiction. Qed.
Lemma Reqb_false x y : Reqb x y = false <-> x <> y.
Proof. destruct (Reqb_spec x y); split; intros; try discriminate; auto; contradiction. Qed.

(** A loop [for k in range(n): acc += f k]. *)
Fixpoint rsum (n : nat) (f : nat -> R) : R :=
  match n with O => 0 | S m => rsum m f + f m end.

(** A loop [for k in range(n): acc *= f k]. *)
Fixpoint rprod (n : nat) (f : nat -> R) : R :=
  match n with O => 1 | S m => rprod m f * f m end.

(** Sum over the elements of a list, in order. *)
Fixpoint lsum (l : list R) : R :=
  match l with [] => 0 | x :: xs => x + lsum xs end.

Definition sumf {A : Type} (f : A -> R) (l : list A) : R := lsum (map f l).

Lemma rsum_ext n f g : (forall k, (k < n)%nat -> f k = g k) -> rsum n f = rsum n g.
Proof.
  induction n as [|n IH]; intros H; simpl; [reflexivity|].
  rewrite (H n) by lia. rewrite IH; [reflexivity|]. intros k Hk; apply H; lia.
Qed.
Lemma rsum_zero n : rsum n (fun _ => 0) = 0.
Proof. induction n as [|n IH]; simpl; [reflexivity|]. rewrite IH; lra. Qed.
Lemma rsum_zero_ext n f : (forall k, (k < n)%nat -> f k = 0) -> rsum n f = 0.
Proof. intros H. rewrite (rsum_ext n f (fun _ => 0) H). apply rsum_zero. Qed.
Lemma rsum_plus n f g : rsum n (fun k => f k + g k) = rsum n f + rsum n g.
Proof. induction n as [|n IH]; simpl; [lra|]. rewrite IH; lra. Qed.
Lemma rsum_minus n f g : rsum n (fun k => f k - g k) = rsum n f - rsum n g.
Proof. induction n as [|n IH]; simpl; [lra|]. rewrite IH; lra. Qed.
Lemma rsum_opp n f : rsum n (fun k => - f k) = - rsum n f.
Proof. induction n as [|n IH]; simpl; [lra|]. rewrite IH; lra. Qed.
Lemma rsum_scal n c f : rsum n (fun k => c * f k) = c * rsum n f.
Proof. induction n as [|n IH]; simpl; [lra|]. rewrite IH; lra. Qed.
Lemma rsum_scal_r n c f : rsum n (fun k => f k * c) = rsum n f * c.
Proof. induction n as [|n IH]; simpl; [lra|]. rewrite IH; lra. Qed.
Lemma rsum_const n c : rsum n (fun _ => c) = INR n * c.
Proof. induction n as [|n IH]; [simpl; lra|]. cbn [rsum]. rewrite IH, S_INR; lra. Qed.
Lemma rsum_swap n m f :
  rsum n (fun i => rsum m (fun j => f i j)) = rsum m (fun j => rsum n (fun i => f i j)).
Proof.
  induction n as [|n IH]; simpl; [symmetry; apply rsum_zero|].
  rewrite IH, rsum_plus; reflexivity.
Qed.
Lemma rsum_nonneg n f : (forall k, (k < n)%nat -> 0 <= f k) -> 0 <= rsum n f.
Proof.
  induction n as [|n IH]; intros H; simpl; [lra|].
  assert (H1 : 0 <= f n) by (apply H; lia).
  assert (H2 : 0 <= rsum n f) by (apply IH; intros; apply H; lia). lra.
Qed.
Lemma rsum_le n f g : (forall k, (k < n)%nat -> f k <= g k) -> rsum n f <= rsum n g.
Proof.
  induction n as [|n IH]; intros H; simpl; [lra|].
  assert (H1 : f n <= g n) by (apply H; lia).
  assert (H2 : rsum n f <= rsum n g) by (apply IH; intros; apply H; lia). lra.
Qed.
Lemma rsum_ge_term n f k :
  (forall j, (j < n)%nat -> 0 <= f j) -> (k < n)%nat -> f k <= rsum n f.
Proof.
  induction n as [|n IH]; intros H Hk; [lia|]. simpl.
  assert (H1 : 0 <= f n) by (apply H; lia).
  assert (H2 : 0 <= rsum n f) by (apply rsum_nonneg; intros; apply H; lia).
  destruct (Nat.eq_dec k n) as [->|Hne]; [lra|].
  assert (H3 : f k <= rsum n f) by (apply IH; [intros; apply H; lia|lia]). lra.
Qed.
Lemma rsum_nonneg_zero n f :
  (forall k, (k < n)%nat -> 0 <= f k) -> rsum n f = 0 -> forall k, (k < n)%nat -> f k = 0.
Proof.
  intros H H0 k Hk. pose proof (rsum_ge_term n f k H Hk). pose proof (H k Hk). lra.
Qed.
(** Selecting a single index. *)
Lemma rsum_delta n f i : (i < n)%nat -> rsum n (fun k => if Nat.eqb k i then f k else 0) = f i.
Proof.
  induction n as [|n IH]; intros Hi; [lia|]. simpl.
  destruct (Nat.eqb_spec n i) as [->|Hne].
  - rewrite rsum_zero_ext; [lra|]. intros k Hk.
    destruct (Nat.eqb_spec k i); [lia|reflexivity].
  - rewrite IH by lia. lra.
Qed.
(** Sum with a trailing part that vanishes. *)
Lemma rsum_trunc n m f : (n <= m)%nat ->
  (forall k, (n <= k < m)%nat -> f k = 0) -> rsum m f = rsum n f.
Proof.
  induction m as [|m IH]; intros Hle H.
  - assert (n = O) by lia; subst; reflexivity.
  - destruct (Nat.eq_dec n (S m)) as [->|Hne]; [reflexivity|].
    simpl. rewrite IH, H by (try lia; intros; apply H; lia). lra.
Qed.
Lemma rsum_shift n f : rsum (S n) f = f O + rsum n (fun k => f (S k)).
Proof.
  induction n as [|n IH]; [simpl; lra|].
  change (rsum (S (S n)) f) with (rsum (S n) f + f (S n)).
  rewrite IH. simpl. lra.
Qed.
Lemma rsum_app n m f : rsum (n + m) f = rsum n f + rsum m (fun k => f (n + k)%nat).
Proof.
  induction m as [|m IH]; [rewrite Nat.add_0_r; simpl; lra|].
  rewrite Nat.add_succ_r. simpl. rewrite IH; lra.
Qed.

Lemma rprod_ext n f g : (forall k, (k < n)%nat -> f k = g k) -> rprod n f = rprod n g.
Proof.
  induction n as [|n IH]; intros H; simpl; [reflexivity|].
  rewrite (H n) by lia. rewrite IH; [reflexivity|]. intros k Hk; apply H; lia.
Qed.
Lemma rprod_mult n f g : rprod n (fun k => f k * g k) = rprod n f * rprod n g.
Proof. induction n as [|n IH]; simpl; [lra|]. rewrite IH; lra. Qed.
Lemma rprod_pos n f : (forall k, (k < n)%nat -> 0 < f k) -> 0 < rprod n f.
Proof.
  induction n as [|n IH]; intros H; simpl; [lra|].
  apply Rmult_lt_0_compat; [apply IH; intros; apply H; lia|apply H; lia].
Qed.

Lemma lsum_app l1 l2 : lsum (l1 ++ l2) = lsum l1 + lsum l2.
Proof. induction l1 as [|x xs IH]; simpl; [lra|]. rewrite IH; lra. Qed.
Lemma lsum_perm l1 l2 : Permutation l1 l2 -> lsum l1 = lsum l2.
Proof. induction 1; simpl; lra. Qed.
Lemma lsum_nonneg l : (forall x, In x l -> 0 <= x) -> 0 <= lsum l.
Proof.
  induction l as [|x xs IH]; intros H; simpl; [lra|].
  assert (0 <= x) by (apply H; left; reflexivity).
  assert (0 <= lsum xs) by (apply IH; intros; apply H; right; assumption). lra.
Qed.
Lemma lsum_scal c l : lsum (map (Rmult c) l) = c * lsum l.
Proof. induction l as [|x xs IH]; simpl; [lra|]. rewrite IH; lra. Qed.

Lemma sumf_nil {A} (f : A -> R) : sumf f [] = 0. Proof. reflexivity. Qed.
Lemma sumf_cons {A} (f : A -> R) x l : sumf f (x :: l) = f x + sumf f l. Proof. reflexivity. Qed.
Lemma sumf_app {A} (f : A -> R) l1 l2 : sumf f (l1 ++ l2) = sumf f l1 + sumf f l2.
Proof. unfold sumf. rewrite map_app. apply lsum_app. Qed.
Lemma sumf_ext {A} (f g : A -> R) l : (forall x, In x l -> f x = g x) -> sumf f l = sumf g l.
Proof.
  induction l as [|x xs IH]; intros H; [reflexivity|]. rewrite !sumf_cons.
  rewrite (H x) by (left; reflexivity). rewrite IH; [reflexivity|]. intros; apply H; right; assumption.
Qed.
Lemma sumf_perm {A} (f : A -> R) l1 l2 : Permutation l1 l2 -> sumf f l1 = sumf f l2.
Proof. intros H; unfold sumf; apply lsum_perm, Permutation_map, H. Qed.
Lemma sumf_scal {A} c (f : A -> R) l : sumf (fun x => c * f x) l = c * sumf f l.
Proof. induction l as [|x xs IH]; [unfold sumf; simpl; lra|]. rewrite !sumf_cons, IH; lra. Qed.
Lemma sumf_scal_r {A} c (f : A -> R) l : sumf (fun x => f x * c) l = sumf f l * c.
Proof. induction l as [|x xs IH]; [unfold sumf; simpl; lra|]. rewrite !sumf_cons, IH; lra. Qed.
Lemma sumf_plus {A} (f g : A -> R) l : sumf (fun x => f x + g x) l = sumf f l + sumf g l.
Proof. induction l as [|x xs IH]; [unfold sumf; simpl; lra|]. rewrite !sumf_cons, IH; lra. Qed.
Lemma sumf_minus {A} (f g : A -> R) l : sumf (fun x => f x - g x) l = sumf f l - sumf g l.
Proof. induction l as [|x xs IH]; [unfold sumf; simpl; lra|]. rewrite !sumf_cons, IH; lra. Qed.
Lemma sumf_zero {A} (f : A -> R) l : (forall x, In x l -> f x = 0) -> sumf f l = 0.
Proof.
  induction l as [|x xs IH]; intros H; [reflexivity|]. rewrite sumf_cons.
  rewrite (H x) by (left; reflexivity). rewrite IH; [lra|]. intros; apply H; right; assumption.
Qed.
Lemma sumf_nonneg {A} (f : A -> R) l : (forall x, In x l -> 0 <= f x) -> 0 <= sumf f l.
Proof.
  intros H; unfold sumf; apply lsum_nonneg. intros y Hy.
  apply in_map_iff in Hy. destruct Hy as [x [<- Hx]]. auto.
Qed.
Lemma sumf_le {A} (f g : A -> R) l : (forall x, In x l -> f x <= g x) -> sumf f l <= sumf g l.
Proof.
  induction l as [|x xs IH]; intros H; [unfold sumf; simpl; lra|]. rewrite !sumf_cons.
  assert (f x <= g x) by (apply H; left; reflexivity).
  assert (sumf f xs <= sumf g xs) by (apply IH; intros; apply H; right; assumption). lra.
Qed.
Lemma sumf_ge_term {A} (f : A -> R) l a :
  (forall x, In x l -> 0 <= f x) -> In a l -> f a <= sumf f l.
Proof.
  induction l as [|x xs IH]; intros H Ha; [contradiction|]. rewrite sumf_cons.
  assert (H0 : 0 <= f x) by (apply H; left; reflexivity).
  assert (H1 : 0 <= sumf f xs) by (apply sumf_nonneg; intros; apply H; right; assumption).
  destruct Ha as [->|Ha]; [lra|].
  assert (f a <= sumf f xs) by (apply IH; auto; intros; apply H; right; assumption). lra.
Qed.
Lemma sumf_map {A B} (f : B -> R) (g : A -> B) l : sumf f (map g l) = sumf (fun x => f (g x)) l.
Proof. unfold sumf; rewrite map_map; reflexivity. Qed.
Lemma sumf_rsum_swap {A} (f : A -> nat -> R) l n :
  sumf (fun x => rsum n (f x)) l = rsum n (fun k => sumf (fun x => f x k) l).
Proof.
  induction l as [|x xs IH].
  - unfold sumf; simpl. symmetry; apply rsum_zero.
  - rewrite sumf_cons, IH, <- rsum_plus. apply rsum_ext; intros. rewrite sumf_cons; reflexivity.
Qed.
Lemma sumf_const {A} c (l : list A) : sumf (fun _ => c) l = INR (length l) * c.
Proof.
  induction l as [|x xs IH]; [unfold sumf; simpl; lra|].
  rewrite sumf_cons, IH. cbn [length]. rewrite S_INR; lra.
Qed.

Lemma mapM_length {A B} (f : A -> res B) l l' : mapM f l = Ok l' -> length l' = length l.
Proof.
  revert l'. induction l as [|x xs IH]; intros l' H; simpl in H; [injection H as <-; reflexivity|].
  destruct (f x) as [y|e]; simpl in H; [|discriminate].
  destruct (mapM f xs) as [ys|e] eqn:E; simpl in H; [|discriminate].
  injection H as <-. simpl. rewrite (IH ys eq_refl). reflexivity.
Qed.

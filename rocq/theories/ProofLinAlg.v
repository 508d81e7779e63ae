From Verif Require Import Base ModelLinAlg SpecLinAlg.

(* ------------------------------------------------------------------ forward substitution *)
Lemma fsub_out n U b k : (n <= k)%nat -> fsub n U b k = 0.
Proof.
  induction n as [|n IH]; intros H; [reflexivity|]. simpl.
  destruct (Nat.eqb_spec k n); [lia|]. apply IH; lia.
Qed.
Lemma fsub_stable n m U b k : (k < n)%nat -> (n <= m)%nat -> fsub m U b k = fsub n U b k.
Proof.
  intros Hk. induction m as [|m IH]; intros Hle.
  - assert (n = O) by lia; subst; reflexivity.
  - destruct (Nat.eq_dec n (S m)) as [->|Hne]; [reflexivity|].
    simpl. destruct (Nat.eqb_spec k m); [lia|]. apply IH; lia.
Qed.
Lemma fsub_correct n U b :
  (forall i, (i < n)%nat -> U i i <> 0) ->
  forall i, (i < n)%nat -> rsum (S i) (fun k => U k i * fsub n U b k) = b i.
Proof.
  intros HU i Hi.
  assert (E : forall k, (k < S i)%nat -> U k i * fsub n U b k = U k i * fsub (S i) U b k).
  { intros k Hk. rewrite (fsub_stable (S i) n) by lia. reflexivity. }
  rewrite (rsum_ext (S i) _ _ E). cbn [rsum fsub].
  rewrite Nat.eqb_refl.
  rewrite (rsum_ext i _ (fun l => U l i * fsub i U b l)).
  - field. apply HU; exact Hi.
  - intros k Hk. destruct (Nat.eqb_spec k i); [lia|reflexivity].
Qed.
Lemma fsub_unique n U b v :
  (forall i, (i < n)%nat -> U i i <> 0) ->
  (forall i, (i < n)%nat -> rsum (S i) (fun k => U k i * v k) = b i) ->
  forall k, (k < n)%nat -> v k = fsub n U b k.
Proof.
  intros HU Hv k. induction k as [k IH] using lt_wf_ind. intros Hk.
  pose proof (Hv k Hk) as H1. pose proof (fsub_correct n U b HU k Hk) as H2.
  cbn [rsum] in H1, H2.
  rewrite (rsum_ext k (fun l => U l k * v l) (fun l => U l k * fsub n U b l)) in H1.
  - pose proof (HU k Hk) as H3.
    apply Rmult_eq_reg_l with (U k k); [lra|exact H3].
  - intros l Hl. rewrite (IH l) by lia. reflexivity.
Qed.
Lemma fsub_ext n U V b c :
  (forall i j, (i < n)%nat -> (j < n)%nat -> U i j = V i j) ->
  (forall i, (i < n)%nat -> b i = c i) ->
  forall k, fsub n U b k = fsub n V c k.
Proof.
  induction n as [|n IH]; intros HU Hb k; [reflexivity|]. simpl.
  assert (E : forall l, fsub n U b l = fsub n V c l).
  { apply IH; [intros; apply HU; lia|intros; apply Hb; lia]. }
  destruct (Nat.eqb_spec k n) as [->|Hne]; [|apply E].
  rewrite (Hb n), (HU n n) by lia.
  rewrite (rsum_ext n _ (fun l => V l n * fsub n V c l)); [reflexivity|].
  intros l Hl. rewrite E, (HU l n) by lia. reflexivity.
Qed.

(* ------------------------------------------------------------------ Cholesky *)
Record chol_ok (n : nat) (A U : mat) : Prop := {
  co_zero : forall i j, (j < i \/ n <= j)%nat -> U i j = 0;
  co_pos : forall i, (i < n)%nat -> 0 < U i i;
  co_eq : forall i j, (i <= j)%nat -> (j < n)%nat -> rsum n (fun k => U k i * U k j) = A i j }.

Lemma chol_sound n A U : chol n A = Some U -> chol_ok n A U.
Proof.
  revert U. induction n as [|n IH]; intros U H; simpl in H.
  - injection H as <-. constructor; intros; try lia; reflexivity.
  - destruct (chol n A) as [U0|] eqn:E; [|discriminate].
    destruct (Rlt_dec 0 _) as [Hd|]; [|discriminate].
    injection H as <-. specialize (IH U0 eq_refl). destruct IH as [Hz Hp He].
    set (u := fsub n U0 (fun i => A i n)) in *.
    set (d2 := A n n - rsum n (fun k => u k * u k)) in *.
    constructor.
    + intros i j Hij. unfold chol_col.
      destruct (Nat.eqb_spec j n) as [->|Hne].
      * destruct (Nat.ltb_spec i n); [lia|]. destruct (Nat.eqb_spec i n); [lia|reflexivity].
      * apply Hz. lia.
    + intros i Hi. unfold chol_col. destruct (Nat.eqb_spec i n) as [->|Hne].
      * rewrite Nat.ltb_irrefl. apply sqrt_lt_R0; exact Hd.
      * apply Hp; lia.
    + intros i j Hij Hj. cbn [rsum].
      assert (E0 : forall f, (forall k, (k < n)%nat -> chol_col n U0 u (sqrt d2) k i * chol_col n U0 u (sqrt d2) k j = f k) ->
         rsum n (fun k => chol_col n U0 u (sqrt d2) k i * chol_col n U0 u (sqrt d2) k j) = rsum n f).
      { intros f Hf. apply rsum_ext; exact Hf. }
      destruct (Nat.eq_dec j n) as [->|Hjn].
      * destruct (Nat.eq_dec i n) as [->|Hin].
        -- rewrite (E0 (fun k => u k * u k)).
           ++ unfold chol_col. rewrite Nat.eqb_refl, Nat.ltb_irrefl.
              assert (Hs : sqrt d2 * sqrt d2 = d2) by (apply sqrt_sqrt; lra).
              rewrite Hs. unfold d2. lra.
           ++ intros k Hk. unfold chol_col. rewrite Nat.eqb_refl.
              destruct (Nat.ltb_spec k n); [reflexivity|lia].
        -- rewrite (E0 (fun k => U0 k i * u k)).
           ++ assert (H1 : rsum n (fun k => U0 k i * u k) = A i n).
              { rewrite (rsum_trunc (S i) n).
                - apply (fsub_correct n U0 (fun i => A i n)).
                  + intros l Hl. specialize (Hp l Hl). lra.
                  + lia.
                - lia.
                - intros k Hk. rewrite Hz by lia. lra. }
              rewrite H1. unfold chol_col. rewrite Nat.eqb_refl, Nat.ltb_irrefl.
              destruct (Nat.eqb_spec i n); [lia|]. rewrite (Hz n i) by lia. lra.
           ++ intros k Hk. unfold chol_col. rewrite Nat.eqb_refl.
              destruct (Nat.eqb_spec i n); [lia|].
              destruct (Nat.ltb_spec k n); [reflexivity|lia].
      * rewrite (E0 (fun k => U0 k i * U0 k j)).
        -- unfold chol_col. destruct (Nat.eqb_spec i n); [lia|].
           destruct (Nat.eqb_spec j n); [lia|]. rewrite He by lia.
           rewrite (Hz n i) by lia. lra.
        -- intros k Hk. unfold chol_col. destruct (Nat.eqb_spec i n); [lia|].
           destruct (Nat.eqb_spec j n); [lia|]. reflexivity.
Qed.

Lemma chol_ext n A B :
  (forall i j, (i <= j)%nat -> (j < n)%nat -> A i j = B i j) ->
  match chol n A, chol n B with
  | Some U, Some V => forall i j, U i j = V i j
  | None, None => True
  | _, _ => False
  end.
Proof.
  induction n as [|n IH]; intros H; simpl; [reflexivity|].
  assert (H0 : forall i j, (i <= j)%nat -> (j < n)%nat -> A i j = B i j) by (intros; apply H; lia).
  specialize (IH H0).
  destruct (chol n A) as [U|], (chol n B) as [V|]; try contradiction; [|exact I].
  assert (Eu : forall k, fsub n U (fun i => A i n) k = fsub n V (fun i => B i n) k).
  { apply fsub_ext; [intros; apply IH|intros; apply H; lia]. }
  assert (Ed : A n n - rsum n (fun k => fsub n U (fun i => A i n) k * fsub n U (fun i => A i n) k)
             = B n n - rsum n (fun k => fsub n V (fun i => B i n) k * fsub n V (fun i => B i n) k)).
  { rewrite (H n n) by lia. f_equal. apply rsum_ext; intros. rewrite Eu; reflexivity. }
  rewrite Ed.
  destruct (Rlt_dec 0 _); [|exact I].
  intros i j. unfold chol_col. rewrite IH, Eu. reflexivity.
Qed.

(** U^T U = A with both triangles, for a symmetric A. *)
Lemma chol_full n A U i j : chol n A = Some U -> symmetric n A ->
  (i < n)%nat -> (j < n)%nat -> rsum n (fun k => U k i * U k j) = A i j.
Proof.
  intros H Hs Hi Hj. destruct (chol_sound n A U H) as [_ _ He].
  destruct (le_lt_dec i j); [apply He; lia|].
  rewrite Hs by lia. rewrite <- He by lia. apply rsum_ext; intros; ring.
Qed.

(** |U x|^2 = x^T A x. *)
Lemma chol_quad n A U x : chol n A = Some U -> symmetric n A ->
  rsum n (fun k => mvec n U x k * mvec n U x k) = quad n A x.
Proof.
  intros H Hs. unfold quad, mvec.
  transitivity (rsum n (fun k => rsum n (fun i => rsum n (fun j => x i * (U k i * U k j) * x j)))).
  - apply rsum_ext; intros k Hk. rewrite <- rsum_scal_r. apply rsum_ext; intros i Hi.
    rewrite <- rsum_scal. apply rsum_ext; intros j Hj. ring.
  - rewrite rsum_swap. apply rsum_ext; intros i Hi. rewrite rsum_swap. apply rsum_ext; intros j Hj.
    rewrite <- (chol_full n A U i j H Hs Hi Hj).
    rewrite rsum_scal_r, rsum_scal. reflexivity.
Qed.

(* ------------------------------------------------------------------ inverse *)
Lemma mdet_ext n A B : agree n A B -> mdet n A = mdet n B.
Proof.
  revert A B. induction n as [|n IH]; intros A B H; simpl; [reflexivity|].
  rewrite (H n n) by lia. f_equal. apply IH. intros i j Hi Hj. unfold schur.
  rewrite !(H _ _) by lia. reflexivity.
Qed.

Lemma minv_ext n A B : agree n A B ->
  match minv n A, minv n B with
  | Some N, Some P => forall i j, N i j = P i j
  | None, None => True
  | _, _ => False
  end.
Proof.
  revert A B. induction n as [|n IH]; intros A B H; simpl; [reflexivity|].
  assert (Hs : agree n (schur n A) (schur n B)).
  { intros i j Hi Hj. unfold schur. rewrite !(H _ _) by lia. reflexivity. }
  specialize (IH _ _ Hs). rewrite (H n n) by lia.
  destruct (Req_EM_T (B n n) 0); [exact I|].
  destruct (minv n (schur n A)) as [N|], (minv n (schur n B)) as [P|]; try contradiction; [|exact I].
  intros i j. unfold border_inv. rewrite (H n n) by lia.
  assert (E1 : forall i, rsum n (fun k => N i k * A k n) = rsum n (fun k => P i k * B k n)).
  { intros i0. apply rsum_ext; intros k Hk. rewrite IH, (H k n) by lia. reflexivity. }
  rewrite E1.
  rewrite (rsum_ext n (fun k => A n k * N k j) (fun k => B n k * P k j)).
  2:{ intros k Hk. rewrite IH, (H n k) by lia. reflexivity. }
  rewrite (rsum_ext n (fun a => A n a * rsum n (fun b => N a b * A b n))
                      (fun a => B n a * rsum n (fun b => P a b * B b n))).
  2:{ intros k Hk. rewrite E1, (H n k) by lia. reflexivity. }
  rewrite IH. reflexivity.
Qed.

Lemma border_ll m M N i j : (i < m)%nat -> (j < m)%nat -> border_inv m M N i j = N i j.
Proof.
  intros Hi Hj; unfold border_inv. destruct (Nat.ltb_spec i m); [|lia].
  destruct (Nat.ltb_spec j m); [reflexivity|lia].
Qed.
Lemma border_lm m M N i : (i < m)%nat ->
  border_inv m M N i m = - rsum m (fun k => N i k * M k m) / M m m.
Proof.
  intros Hi; unfold border_inv. destruct (Nat.ltb_spec i m); [|lia].
  rewrite Nat.ltb_irrefl, Nat.eqb_refl. reflexivity.
Qed.
Lemma border_ml m M N j : (j < m)%nat ->
  border_inv m M N m j = - rsum m (fun k => M m k * N k j) / M m m.
Proof.
  intros Hi; unfold border_inv. rewrite Nat.ltb_irrefl, Nat.eqb_refl.
  destruct (Nat.ltb_spec j m); [reflexivity|lia].
Qed.
Lemma border_mm m M N :
  border_inv m M N m m = 1 / M m m
    + rsum m (fun a => M m a * rsum m (fun b => N a b * M b m)) / (M m m * M m m).
Proof. unfold border_inv. rewrite !Nat.ltb_irrefl, !Nat.eqb_refl. reflexivity. Qed.

Lemma ident_refl i : ident i i = 1.
Proof. unfold ident; rewrite Nat.eqb_refl; reflexivity. Qed.
Lemma ident_neq i j : i <> j -> ident i j = 0.
Proof. unfold ident; destruct (Nat.eqb_spec i j); congruence. Qed.
Lemma rsum_ident_l n f i : (i < n)%nat -> rsum n (fun k => ident i k * f k) = f i.
Proof.
  intros Hi. rewrite <- (rsum_delta n f i Hi). apply rsum_ext; intros k Hk. unfold ident.
  destruct (Nat.eqb_spec i k), (Nat.eqb_spec k i); try congruence; ring.
Qed.
Lemma rsum_ident_r n f i : (i < n)%nat -> rsum n (fun k => f k * ident k i) = f i.
Proof.
  intros Hi. rewrite <- (rsum_delta n f i Hi). apply rsum_ext; intros k Hk. unfold ident.
  destruct (Nat.eqb_spec k i); ring.
Qed.

Lemma minv_sound n M N : minv n M = Some N -> is_inverse n M N.
Proof.
  revert M N. induction n as [|n IH]; intros M N H; [intros i j Hi; lia|].
  simpl in H. destruct (Req_EM_T (M n n) 0) as [|Hc]; [discriminate|].
  destruct (minv n (schur n M)) as [P|] eqn:E; [|discriminate]. injection H as <-.
  specialize (IH _ _ E).
  set (c := M n n) in *.
  (* facts about P *)
  assert (R1 : forall i j, (i < n)%nat -> (j < n)%nat ->
            rsum n (fun k => M i k * P k j) = ident i j + M i n / c * rsum n (fun k => M n k * P k j)).
  { intros i j Hi Hj. destruct (IH i j Hi Hj) as [H1 _]. rewrite <- H1.
    rewrite <- rsum_scal, <- rsum_plus. apply rsum_ext; intros k Hk.
    unfold schur. fold c. field. exact Hc. }
  assert (R2 : forall i j, (i < n)%nat -> (j < n)%nat ->
            rsum n (fun k => P i k * M k j) = ident i j + rsum n (fun k => P i k * M k n) * (M n j / c)).
  { intros i j Hi Hj. destruct (IH i j Hi Hj) as [_ H1]. rewrite <- H1.
    rewrite <- rsum_scal_r, <- rsum_plus. apply rsum_ext; intros k Hk.
    unfold schur. fold c. field. exact Hc. }
  set (q := rsum n (fun a => M n a * rsum n (fun b => P a b * M b n))).
  assert (Q2 : rsum n (fun b => rsum n (fun a => M n a * P a b) * M b n) = q).
  { unfold q. transitivity (rsum n (fun b => rsum n (fun a => M n a * P a b * M b n))).
    - apply rsum_ext; intros b Hb. rewrite rsum_scal_r. reflexivity.
    - rewrite rsum_swap. apply rsum_ext; intros a Ha. rewrite <- rsum_scal.
      apply rsum_ext; intros; ring. }
  (* M * (P b) for a row i < n *)
  assert (S1 : forall i, (i < n)%nat ->
            rsum n (fun k => M i k * rsum n (fun l => P k l * M l n)) = M i n + M i n / c * q).
  { intros i Hi.
    transitivity (rsum n (fun l => rsum n (fun k => M i k * P k l) * M l n)).
    - transitivity (rsum n (fun k => rsum n (fun l => M i k * P k l * M l n))).
      + apply rsum_ext; intros k Hk. rewrite <- rsum_scal. apply rsum_ext; intros; ring.
      + rewrite rsum_swap. apply rsum_ext; intros l Hl. rewrite rsum_scal_r. reflexivity.
    - transitivity (rsum n (fun l => ident i l * M l n
                       + M i n / c * (rsum n (fun a => M n a * P a l) * M l n))).
      + apply rsum_ext; intros l Hl. rewrite R1 by lia. ring.
      + rewrite rsum_plus, (rsum_ident_l n (fun l => M l n) i Hi), rsum_scal, Q2. reflexivity. }
  assert (S2 : forall j, (j < n)%nat ->
            rsum n (fun k => rsum n (fun l => M n l * P l k) * M k j) = M n j + q * (M n j / c)).
  { intros j Hj.
    transitivity (rsum n (fun l => M n l * rsum n (fun k => P l k * M k j))).
    - transitivity (rsum n (fun k => rsum n (fun l => M n l * P l k * M k j))).
      + apply rsum_ext; intros k Hk. rewrite rsum_scal_r. reflexivity.
      + rewrite rsum_swap. apply rsum_ext; intros l Hl. rewrite <- rsum_scal.
        apply rsum_ext; intros; ring.
    - transitivity (rsum n (fun l => M n l * ident l j
                       + (M n l * rsum n (fun b => P l b * M b n)) * (M n j / c))).
      + apply rsum_ext; intros l Hl. rewrite R2 by lia. ring.
      + rewrite rsum_plus, (rsum_ident_r n (fun l => M n l) j Hj), rsum_scal_r. reflexivity. }
  intros i j Hi Hj. cbn [rsum].
  destruct (Nat.eq_dec i n) as [->|Hin]; destruct (Nat.eq_dec j n) as [->|Hjn].
  - (* corner *)
    rewrite border_mm. fold q c.
    rewrite (rsum_ext n (fun k => M n k * border_inv n M P k n)
               (fun k => (- / c) * (M n k * rsum n (fun l => P k l * M l n)))).
    2:{ intros k Hk. rewrite border_lm by lia. fold c. field. exact Hc. }
    rewrite (rsum_ext n (fun k => border_inv n M P n k * M k n)
               (fun k => (- / c) * (rsum n (fun l => M n l * P l k) * M k n))).
    2:{ intros k Hk. rewrite border_ml by lia. fold c. field. exact Hc. }
    rewrite !rsum_scal, Q2. fold q. rewrite ident_refl. split; field; exact Hc.
  - (* i = n, j < n *)
    rewrite (border_ml n M P j) by lia.
    rewrite (rsum_ext n (fun k => M n k * border_inv n M P k j) (fun k => M n k * P k j)).
    2:{ intros k Hk. rewrite border_ll by lia. reflexivity. }
    rewrite (rsum_ext n (fun k => border_inv n M P n k * M k j)
               (fun k => (- / c) * (rsum n (fun l => M n l * P l k) * M k j))).
    2:{ intros k Hk. rewrite border_ml by lia. fold c. field. exact Hc. }
    rewrite rsum_scal, S2 by lia. rewrite border_mm. fold q c.
    rewrite (ident_neq n j) by lia. split; field; exact Hc.
  - (* i < n, j = n *)
    rewrite (border_lm n M P i) by lia.
    rewrite (rsum_ext n (fun k => border_inv n M P i k * M k n) (fun k => P i k * M k n)).
    2:{ intros k Hk. rewrite border_ll by lia. reflexivity. }
    rewrite (rsum_ext n (fun k => M i k * border_inv n M P k n)
               (fun k => (- / c) * (M i k * rsum n (fun l => P k l * M l n)))).
    2:{ intros k Hk. rewrite border_lm by lia. fold c. field. exact Hc. }
    rewrite rsum_scal, S1 by lia. rewrite border_mm. fold q c.
    rewrite (ident_neq i n) by lia. split; field; exact Hc.
  - (* both < n *)
    rewrite (border_ml n M P j), (border_lm n M P i) by lia.
    rewrite (rsum_ext n (fun k => M i k * border_inv n M P k j) (fun k => M i k * P k j)).
    2:{ intros k Hk. rewrite border_ll by lia. reflexivity. }
    rewrite (rsum_ext n (fun k => border_inv n M P i k * M k j) (fun k => P i k * M k j)).
    2:{ intros k Hk. rewrite border_ll by lia. reflexivity. }
    rewrite R1, R2 by lia. fold c. split; field; exact Hc.
Qed.

Lemma schur_sym n M : symmetric (S n) M -> symmetric n (schur n M).
Proof.
  intros H i j Hi Hj. unfold schur.
  rewrite (H i j), (H i n), (H j n) by lia.
  unfold Rdiv. ring.
Qed.

Lemma minv_sym n M N : minv n M = Some N -> symmetric n M -> symmetric n N.
Proof.
  revert M N. induction n as [|n IH]; intros M N H Hs; [intros i j Hi; lia|].
  simpl in H. destruct (Req_EM_T (M n n) 0) as [|Hc]; [discriminate|].
  destruct (minv n (schur n M)) as [P|] eqn:E; [|discriminate]. injection H as <-.
  specialize (IH _ _ E (schur_sym n M Hs)).
  assert (X : forall i, (i < n)%nat -> border_inv n M P i n = border_inv n M P n i).
  { intros i Hi. rewrite border_lm, border_ml by lia. f_equal. f_equal.
    apply rsum_ext; intros k Hk. rewrite (IH i k), (Hs k n) by lia. ring. }
  intros i j Hi Hj.
  destruct (Nat.eq_dec i n) as [->|Hin]; destruct (Nat.eq_dec j n) as [->|Hjn].
  - reflexivity.
  - symmetry; apply X; lia.
  - apply X; lia.
  - rewrite !border_ll by lia. apply IH; lia.
Qed.

(* ------------------------------------------------------------------ quadratic forms *)
Lemma quad_ext n A B x y : agree n A B -> (forall i, (i < n)%nat -> x i = y i) -> quad n A x = quad n B y.
Proof.
  intros HA Hx. apply rsum_ext; intros i Hi. apply rsum_ext; intros j Hj.
  rewrite HA, !Hx by lia. reflexivity.
Qed.

Lemma quad_S n M x : symmetric (S n) M ->
  quad (S n) M x = quad n M x + 2 * x n * rsum n (fun j => M n j * x j) + M n n * x n * x n.
Proof.
  intros Hs. unfold quad. cbn [rsum]. rewrite rsum_plus.
  rewrite (rsum_ext n (fun k => x k * M k n * x n) (fun k => x n * (M n k * x k))).
  2:{ intros k Hk. rewrite (Hs k n) by lia. ring. }
  rewrite (rsum_ext n (fun j => x n * M n j * x j) (fun j => x n * (M n j * x j))).
  2:{ intros k Hk. ring. }
  rewrite !rsum_scal. ring.
Qed.

Lemma quad_schur n M x : symmetric (S n) M -> M n n <> 0 ->
  quad n (schur n M) x
  = quad n M x - rsum n (fun j => M n j * x j) * rsum n (fun j => M n j * x j) / M n n.
Proof.
  intros Hs Hc. unfold quad.
  transitivity (rsum n (fun i => rsum n (fun j => x i * M i j * x j)
      - (M n i * x i) * (rsum n (fun j => M n j * x j) * / M n n))).
  - apply rsum_ext; intros i Hi.
    rewrite (rsum_ext n (fun j => x i * schur n M i j * x j)
        (fun j => x i * M i j * x j - (M n i * x i * / M n n) * (M n j * x j))).
    2:{ intros j Hj. unfold schur. rewrite (Hs i n) by lia. field; exact Hc. }
    rewrite rsum_minus, rsum_scal. ring.
  - rewrite rsum_minus, rsum_scal_r. unfold Rdiv. ring.
Qed.

Lemma posdef_diag n M i : posdef n M -> (i < n)%nat -> 0 < M i i.
Proof.
  intros Hp Hi. specialize (Hp (fun k => ident i k)).
  assert (Hq : quad n M (fun k => ident i k) = M i i).
  { unfold quad.
    transitivity (rsum n (fun a => ident i a * rsum n (fun b => M a b * ident b i))).
    - apply rsum_ext; intros a Ha. rewrite <- rsum_scal. apply rsum_ext; intros b Hb.
      assert (E : ident i b = ident b i) by (unfold ident; rewrite Nat.eqb_sym; reflexivity).
      rewrite E. ring.
    - rewrite (rsum_ident_l n (fun a => rsum n (fun b => M a b * ident b i)) i Hi).
      apply (rsum_ident_r n (fun b => M i b) i Hi). }
  rewrite Hq in Hp. apply Hp. exists i. split; [exact Hi|]. rewrite ident_refl. lra.
Qed.

Lemma schur_posdef n M : symmetric (S n) M -> posdef (S n) M -> posdef n (schur n M).
Proof.
  intros Hs Hp x [i [Hi Hx]].
  assert (Hc : 0 < M n n) by (apply (posdef_diag (S n)); [exact Hp|lia]).
  set (t := - rsum n (fun j => M n j * x j) / M n n).
  set (y := fun k => if Nat.eqb k n then t else x k).
  assert (Hy : forall k, (k < n)%nat -> y k = x k).
  { intros k Hk. unfold y. destruct (Nat.eqb_spec k n); [lia|reflexivity]. }
  assert (Hyn : y n = t) by (unfold y; rewrite Nat.eqb_refl; reflexivity).
  assert (Hq : 0 < quad (S n) M y).
  { apply Hp. exists i. split; [lia|]. rewrite Hy by lia. exact Hx. }
  rewrite quad_S in Hq by exact Hs.
  rewrite (quad_ext n M M y x) in Hq by (try (intros ? ? ? ?; reflexivity); assumption).
  rewrite (rsum_ext n (fun j => M n j * y j) (fun j => M n j * x j)) in Hq
    by (intros k Hk; rewrite Hy by lia; reflexivity).
  rewrite Hyn in Hq. unfold t in Hq.
  rewrite quad_schur by (try assumption; lra).
  set (s := rsum n (fun j => M n j * x j)) in *.
  replace (quad n M x - s * s / M n n) with (quad n M x + 2 * (- s / M n n) * s + M n n * (- s / M n n) * (- s / M n n)).
  - exact Hq.
  - field. lra.
Qed.

(** The whole whitening chain succeeds for a positive definite matrix, and the squared diagonal of
    the factor multiplies with the determinant to one. *)
Lemma whiten_posdef n M : symmetric n M -> posdef n M ->
  exists N U, minv n M = Some N /\ chol n N = Some U
    /\ rprod n (fun i => U i i * U i i) * mdet n M = 1.
Proof.
  revert M. induction n as [|n IH]; intros M Hs Hp.
  - exists (fun _ _ => 0), (fun _ _ => 0). simpl. repeat split. ring.
  - assert (Hc : 0 < M n n) by (apply (posdef_diag (S n)); [exact Hp|lia]).
    destruct (IH (schur n M) (schur_sym n M Hs) (schur_posdef n M Hs Hp)) as [P [U0 [HP [HU Hdet]]]].
    exists (border_inv n M P). simpl. rewrite HP.
    destruct (Req_EM_T (M n n) 0) as [|_]; [lra|].
    pose proof (chol_ext n P (border_inv n M P)) as Hext.
    rewrite HU in Hext.
    assert (HPl : forall i j, (i <= j)%nat -> (j < n)%nat -> P i j = border_inv n M P i j).
    { intros i j Hi Hj. rewrite border_ll by lia. reflexivity. }
    specialize (Hext HPl).
    destruct (chol n (border_inv n M P)) as [V|] eqn:EV; [|contradiction].
    pose proof (chol_sound n P U0 HU) as [Hz Hpos He].
    pose proof (minv_sym _ _ _ HP (schur_sym n M Hs)) as HPs.
    set (u := fsub n V (fun i => border_inv n M P i n)).
    (* u = - U0 b / c *)
    set (v := fun k => - / M n n * mvec n U0 (fun l => M l n) k).
    assert (Huv : forall k, (k < n)%nat -> u k = v k).
    { intros k Hk. symmetry. unfold u. apply fsub_unique; [| |exact Hk].
      - intros i Hi. rewrite <- Hext. specialize (Hpos i Hi). lra.
      - intros i Hi. rewrite border_lm by lia.
        transitivity (rsum n (fun k0 => U0 k0 i * v k0)).
        + symmetry. rewrite (rsum_trunc (S i) n).
          * apply rsum_ext; intros l Hl. rewrite Hext. reflexivity.
          * lia.
          * intros l Hl. rewrite Hz by lia. ring.
        + unfold v, mvec.
          transitivity (- / M n n * rsum n (fun l => rsum n (fun k0 => U0 k0 i * U0 k0 l) * M l n)).
          * rewrite <- rsum_scal.
            transitivity (rsum n (fun k0 => rsum n (fun l => - / M n n * (U0 k0 i * U0 k0 l * M l n)))).
            { apply rsum_ext; intros k0 Hk0. rewrite rsum_scal.
              rewrite (rsum_ext n (fun k1 => U0 k0 i * U0 k0 k1 * M k1 n) (fun k1 => U0 k0 i * (U0 k0 k1 * M k1 n)))
                by (intros; ring).
              rewrite rsum_scal. ring. }
            { rewrite rsum_swap. apply rsum_ext; intros l Hl.
              rewrite rsum_scal, rsum_scal_r. reflexivity. }
          * rewrite (rsum_ext n (fun l => rsum n (fun k0 => U0 k0 i * U0 k0 l) * M l n)
               (fun l => P i l * M l n)).
            { field. lra. }
            intros l Hl. rewrite (chol_full n P U0 i l HU HPs) by lia. reflexivity. }
    assert (Huu : rsum n (fun k => u k * u k)
              = rsum n (fun a => M n a * rsum n (fun b => P a b * M b n)) / (M n n * M n n)).
    { rewrite (rsum_ext n (fun k => u k * u k) (fun k => / (M n n * M n n) *
         (mvec n U0 (fun l => M l n) k * mvec n U0 (fun l => M l n) k))).
      2:{ intros k Hk. rewrite Huv by lia. unfold v. field. lra. }
      rewrite rsum_scal, (chol_quad n P U0 _ HU HPs).
      unfold quad, Rdiv. rewrite Rmult_comm. f_equal.
      apply rsum_ext; intros i Hi. rewrite <- rsum_scal. apply rsum_ext; intros j Hj.
      rewrite (Hs i n) by lia. ring. }
    assert (Hd : border_inv n M P n n - rsum n (fun k => u k * u k) = / M n n).
    { rewrite border_mm, Huu. field. lra. }
    rewrite Hd.
    assert (Hinv : 0 < / M n n) by (apply Rinv_0_lt_compat; exact Hc).
    destruct (Rlt_dec 0 (/ M n n)) as [_|]; [|contradiction].
    eexists. split; [reflexivity|]. split; [reflexivity|].
    rewrite (rprod_ext n _ (fun i => U0 i i * U0 i i)).
    2:{ intros k Hk. unfold chol_col. destruct (Nat.eqb_spec k n); [lia|]. rewrite <- Hext. reflexivity. }
    unfold chol_col. rewrite Nat.eqb_refl, Nat.ltb_irrefl.
    rewrite sqrt_sqrt by lra.
    transitivity (rprod n (fun i => U0 i i * U0 i i) * mdet n (schur n M) * (/ M n n * M n n)); [ring|].
    rewrite Hdet. field. lra.
Qed.

(** Conversely: when the chain succeeds on a symmetric matrix, the matrix is positive definite. *)
Lemma chol_quad_pos n A U x : chol n A = Some U -> symmetric n A ->
  (exists i, (i < n)%nat /\ x i <> 0) -> 0 < quad n A x.
Proof.
  intros H Hs [i [Hi Hx]]. rewrite <- (chol_quad n A U x H Hs).
  destruct (chol_sound n A U H) as [Hz Hp _].
  destruct (Rle_lt_or_eq_dec 0 (rsum n (fun k => mvec n U x k * mvec n U x k))) as [|E]; auto.
  { apply rsum_nonneg; intros; apply Rle_0_sqr. }
  exfalso. apply Hx.
  assert (Hall : forall k, (k < n)%nat -> mvec n U x k = 0).
  { intros k Hk. symmetry in E.
    pose proof (rsum_nonneg_zero n _ (fun k _ => Rle_0_sqr (mvec n U x k)) E k Hk) as H0.
    apply Rsqr_0_uniq; exact H0. }
  (* back substitution *)
  assert (Hback : forall m, (m <= n)%nat -> forall k, (n - m <= k < n)%nat -> x k = 0).
  { induction m as [|m IHm]; intros Hm k Hk; [lia|].
    destruct (Nat.eq_dec k (n - S m)) as [->|Hne]; [|apply IHm; lia].
    set (r := (n - S m)%nat) in *.
    assert (Hr : mvec n U x r = 0) by (apply Hall; lia).
    unfold mvec in Hr.
    rewrite (rsum_ext n _ (fun j => if Nat.eqb j r then U r j * x j else 0)) in Hr.
    - rewrite (rsum_delta n (fun j => U r j * x j) r) in Hr by lia.
      specialize (Hp r ltac:(lia)). apply Rmult_integral in Hr. destruct Hr; [lra|assumption].
    - intros j Hj. destruct (Nat.eqb_spec j r) as [->|Hne]; [reflexivity|].
      destruct (le_lt_dec r j); [rewrite (IHm ltac:(lia) j) by lia; ring|].
      rewrite Hz by lia. ring. }
  apply (Hback n); lia.
Qed.

Lemma vec_zero_dec n (y : pt) :
  (exists k, (k < n)%nat /\ y k <> 0) \/ (forall k, (k < n)%nat -> y k = 0).
Proof.
  induction n as [|n IH]; [right; intros; lia|].
  destruct IH as [[k [Hk Hy]]|H]; [left; exists k; split; [lia|exact Hy]|].
  destruct (Req_EM_T (y n) 0) as [E|E].
  - right. intros k Hk. destruct (Nat.eq_dec k n) as [->|]; [exact E|apply H; lia].
  - left. exists n. split; [lia|exact E].
Qed.

Lemma whiten_only_posdef n M N U :
  symmetric n M -> minv n M = Some N -> chol n N = Some U -> posdef n M.
Proof.
  intros Hs HN HU x [i [Hi Hx]].
  pose proof (minv_sym n M N HN Hs) as HNs. pose proof (minv_sound n M N HN) as Hinv.
  set (y := mvec n M x).
  (* x = N y *)
  assert (HNy : forall k, (k < n)%nat -> mvec n N y k = x k).
  { intros k Hk. unfold y, mvec.
    transitivity (rsum n (fun l => rsum n (fun j => N k j * M j l) * x l)).
    - transitivity (rsum n (fun j => rsum n (fun l => N k j * M j l * x l))).
      + apply rsum_ext; intros j Hj. rewrite <- rsum_scal. apply rsum_ext; intros; ring.
      + rewrite rsum_swap. apply rsum_ext; intros l Hl. rewrite rsum_scal_r. reflexivity.
    - rewrite (rsum_ext n _ (fun l => ident k l * x l)).
      + apply (rsum_ident_l n x k Hk).
      + intros l Hl. destruct (Hinv k l Hk Hl) as [_ E]. rewrite E. reflexivity. }
  assert (Hq : quad n M x = quad n N y).
  { unfold quad.
    transitivity (rsum n (fun k => x k * y k)).
    - apply rsum_ext; intros k Hk. unfold y, mvec. rewrite <- rsum_scal.
      apply rsum_ext; intros; ring.
    - transitivity (rsum n (fun k => y k * mvec n N y k)).
      + apply rsum_ext; intros k Hk. rewrite HNy by lia. ring.
      + apply rsum_ext; intros k Hk. unfold mvec. rewrite <- rsum_scal.
        apply rsum_ext; intros; ring. }
  rewrite Hq. apply (chol_quad_pos n N U y HU HNs).
  (* y <> 0 *)
  assert (Hdec : (exists k, (k < n)%nat /\ y k <> 0) \/ (forall k, (k < n)%nat -> y k = 0)).
  { apply vec_zero_dec. }
  destruct Hdec as [Hd|H0]; [exact Hd|]. exfalso. apply Hx.
  rewrite <- (HNy i Hi). unfold mvec. apply rsum_zero_ext. intros k Hk. rewrite H0 by lia. ring.
Qed.

(** Positive definite matrices have positive determinant (as computed). *)
Lemma mdet_posdef n M : symmetric n M -> posdef n M -> 0 < mdet n M.
Proof.
  revert M. induction n as [|n IH]; intros M Hs Hp; simpl; [lra|].
  apply Rmult_lt_0_compat; [apply (posdef_diag (S n)); [exact Hp|lia]|].
  apply IH; [apply schur_sym, Hs|apply schur_posdef; assumption].
Qed.

(** The inverse is unique. *)
Lemma inverse_unique n M N P : is_inverse n M N -> is_inverse n M P -> agree n N P.
Proof.
  intros HN HP i j Hi Hj.
  rewrite <- (rsum_ident_r n (fun k => N i k) j Hj).
  transitivity (rsum n (fun k => N i k * rsum n (fun l => M k l * P l j))).
  - apply rsum_ext; intros k Hk. destruct (HP k j Hk Hj) as [E _]. rewrite E. reflexivity.
  - transitivity (rsum n (fun l => rsum n (fun k => N i k * M k l) * P l j)).
    + transitivity (rsum n (fun k => rsum n (fun l => N i k * M k l * P l j))).
      * apply rsum_ext; intros k Hk. rewrite <- rsum_scal. apply rsum_ext; intros; ring.
      * rewrite rsum_swap. apply rsum_ext; intros l Hl. rewrite rsum_scal_r. reflexivity.
    + rewrite (rsum_ext n _ (fun l => ident i l * P l j)).
      * apply (rsum_ident_l n (fun l => P l j) i Hi).
      * intros l Hl. destruct (HN i l Hi Hl) as [_ E]. rewrite E. reflexivity.
Qed.

(** Where the density is high. *)
From Coquelicot Require Import Coquelicot.
From Verif Require Import Base ModelLinAlg SpecLinAlg ModelKernels SpecKernels SpecIntegral ModelKDE SpecKDE SpecReflected SpecShape
  ProofLinAlg ProofKernels ProofDensity ProofTop ProofTop2 ProofTop3 ProofGrid3 ProofReflected ProofExamples ProofKDE ProofReflect1 ProofIntegral ProofInt2 ProofCdfError.
Open Scope R_scope.
Notation length := List.length.

(** * Bilinear form *)
Definition bil (n : nat) (N : mat) (x y : pt) : R := rsum n (fun i => rsum n (fun j => x i * N i j * y j)).
Definition lin (x : pt) (t : R) (y : pt) : pt := fun i => x i + t * y i.
Lemma bil_sym n N x y : symmetric n N -> bil n N x y = bil n N y x.
Proof.
  intros Hs. unfold bil. rewrite rsum_swap. apply rsum_ext. intros i Hi. apply rsum_ext. intros j Hj. rewrite (Hs j i Hj Hi). ring.
Qed.
Lemma quad_lin n N x t y : symmetric n N -> quad n N (lin x t y) = quad n N x + 2 * t * bil n N x y + t * t * quad n N y.
Proof.
  intros Hs. assert (E : quad n N (lin x t y) = quad n N x + t * bil n N x y + t * bil n N y x + t * t * quad n N y).
  { unfold quad, bil, lin. rewrite <- !rsum_scal, <- !rsum_plus. apply rsum_ext. intros i _. rewrite <- !rsum_scal, <- !rsum_plus. apply rsum_ext. intros j _. ring. }
  rewrite E, (bil_sym n N y x Hs). ring.
Qed.
Section psd.
Variable n : nat.
Variable N : mat.
Hypothesis HS : symmetric n N.
Hypothesis HP : forall x, 0 <= quad n N x.
Let Q := quad n N.
Lemma Q_ext x y : (forall i, (i < n)%nat -> x i = y i) -> Q x = Q y.
Proof. intros H. unfold Q. apply quad_ext; [intros i j _ _; reflexivity|exact H]. Qed.
Lemma bil_le x y : Rabs (2 * bil n N x y) <= Q x + Q y.
Proof.
  pose proof (HP (lin x 1 y)) as H1. pose proof (HP (lin x (-1) y)) as H2. rewrite quad_lin in H1, H2 by exact HS. unfold Q. apply Rabs_le. split; lra.
Qed.
Lemma Q_convex a b t (u : pt) : 0 <= t <= 1 -> (forall i, (i < n)%nat -> u i = t * a i + (1 - t) * b i) -> Q u <= t * Q a + (1 - t) * Q b.
Proof.
  intros Ht Hu. rewrite (Q_ext u (lin b t (lin a (-1) b))) by (intros i Hi; rewrite Hu by exact Hi; unfold lin; ring).
  unfold Q. rewrite quad_lin by exact HS.
  assert (E1 : bil n N b (lin a (-1) b) = bil n N b a - quad n N b).
  { unfold bil, quad, lin. rewrite <- rsum_minus. apply rsum_ext. intros i _. rewrite <- rsum_minus. apply rsum_ext. intros j _. ring. }
  rewrite E1, quad_lin by exact HS. rewrite (bil_sym n N b a HS).
  pose proof (HP (lin a (-1) b)) as H. rewrite quad_lin in H by exact HS.
  assert (Hm : 0 <= t * (1 - t) * (quad n N a + 2 * -1 * bil n N a b + -1 * -1 * quad n N b)) by (apply Rmult_le_pos; [apply Rmult_le_pos; lra|exact H]). lra.
Qed.

(** * Weighted means, built up point by point *)
Inductive hull : list pt -> pt -> Prop :=
| hull_one : forall p y, (forall i, (i < n)%nat -> y i = p i) -> hull [p] y
| hull_cons : forall q l z t y, hull l z -> 0 <= t <= 1 -> (forall i, (i < n)%nat -> y i = t * q i + (1 - t) * z i) -> hull (q :: l) y.
Lemma hull_among l y : hull l y -> among n l y.
Proof.
  induction 1 as [p y Hy|q l z t y Hz (ls & L & Hnn & Hsum & Hc) Ht Hy].
  - exists [1]. split; [reflexivity|]. split; [intros v [<-|[]]; lra|]. split; [cbn; ring|]. intros i Hi. rewrite (Hy i Hi). unfold sumf. cbn. ring.
  - exists (t :: map (Rmult (1 - t)) ls). split; [cbn; rewrite map_length, L; reflexivity|]. split.
    + intros v [<-|Hin]; [lra|]. apply in_map_iff in Hin. destruct Hin as (w & <- & Hw). apply Rmult_le_pos; [lra|exact (Hnn w Hw)].
    + split; [cbn [lsum fold_right]; change (fold_right Rplus 0 (map (Rmult (1 - t)) ls)) with (lsum (map (Rmult (1 - t)) ls)); rewrite lsum_scal, Hsum; ring|].
      intros i Hi. rewrite (Hy i Hi), (Hc i Hi). cbn [combine]. rewrite sumf_cons. cbn [fst snd]. f_equal. clear - L.
      revert ls L. induction l as [|p l IH]; intros [|w ls] L; try discriminate; cbn [combine map]; [unfold sumf; cbn; ring|].
      rewrite !sumf_cons. cbn [fst snd]. rewrite <- IH by (cbn in L; lia). ring.
Qed.
Lemma hull_of l : l <> [] -> exists y, hull l y.
Proof.
  induction l as [|q [|p l] IH]; intros H; [contradiction|exists q; apply hull_one; reflexivity|].
  destruct IH as [z Hz]; [discriminate|]. exists z. apply (hull_cons _ _ z 0); [exact Hz|lra|intros; ring].
Qed.
Lemma hull_in l p : In p l -> hull l p.
Proof.
  induction l as [|q l IH]; [contradiction|]. intros [->|Hin].
  - destruct l as [|r l]; [apply hull_one; reflexivity|]. destruct (hull_of (r :: l)) as [z Hz]; [discriminate|]. apply (hull_cons _ _ z 1); [exact Hz|lra|intros; ring].
  - apply (hull_cons _ _ p 0); [exact (IH Hin)|lra|intros; ring].
Qed.
Lemma hull_same l y z : hull l y -> (forall i, (i < n)%nat -> z i = y i) -> hull l z.
Proof.
  intros H E. destruct H as [p y Hy|q l w t y Hw Ht Hy]; [apply hull_one|apply (hull_cons _ _ w t); [exact Hw|exact Ht|]]; intros i Hi; rewrite (E i Hi); apply Hy, Hi.
Qed.
Lemma hull_mix l : forall y z t u, hull l y -> hull l z -> 0 <= t <= 1 -> (forall i, (i < n)%nat -> u i = t * y i + (1 - t) * z i) -> hull l u.
Proof.
  induction l as [|q l IH]; intros y z t u Hy Hz Ht Hu; [inversion Hy|].
  destruct l as [|p l].
  - inversion Hy as [? ? Ey|? ? ? ? ? Hn]; [|inversion Hn]. inversion Hz as [? ? Ez|? ? ? ? ? Hn]; [|inversion Hn]. subst.
    apply hull_one. intros i Hi. rewrite (Hu i Hi), (Ey i Hi), (Ez i Hi). ring.
  - inversion Hy as [|? ? y1 a ? Hy1 Ha Ey]; subst. inversion Hz as [|? ? z1 b ? Hz1 Hb Ez]; subst.
    set (c := t * a + (1 - t) * b).
    assert (Hc : 0 <= c <= 1). { unfold c. split; [pose proof (Rmult_le_pos t a); pose proof (Rmult_le_pos (1 - t) b); lra|].
      pose proof (Rmult_le_pos t (1 - a)). pose proof (Rmult_le_pos (1 - t) (1 - b)). lra. }
    destruct (Req_dec c 1) as [E1|E1].
    + apply (hull_cons _ _ y1 1); [exact Hy1|lra|]. intros i Hi. rewrite (Hu i Hi), (Ey i Hi), (Ez i Hi).
      assert (F1 : t * (1 - a) = 0 /\ (1 - t) * (1 - b) = 0). { pose proof (Rmult_le_pos t (1 - a)). pose proof (Rmult_le_pos (1 - t) (1 - b)). unfold c in E1. lra. }
      destruct F1 as [F1 F2]. transitivity (c * q i + t * (1 - a) * y1 i + (1 - t) * (1 - b) * z1 i); [unfold c; ring|]. rewrite F1, F2, E1. ring.
    + assert (Hc1 : 0 < 1 - c) by lra. set (s := t * (1 - a) / (1 - c)).
      assert (Es : 1 - s = (1 - t) * (1 - b) / (1 - c)). { unfold s, c. field. fold c. unfold c in Hc1. lra. }
      assert (Hs : 0 <= s <= 1).
      { assert (H1 : 0 <= s) by (unfold s; apply Rmult_le_pos; [apply Rmult_le_pos; lra|left; apply Rinv_0_lt_compat; exact Hc1]).
        assert (H2 : 0 <= 1 - s) by (rewrite Es; apply Rmult_le_pos; [apply Rmult_le_pos; lra|left; apply Rinv_0_lt_compat; exact Hc1]). lra. }
      apply (hull_cons _ _ (fun i => s * y1 i + (1 - s) * z1 i) c); [|exact Hc|].
      * apply (IH y1 z1 s); [exact Hy1|exact Hz1|exact Hs|reflexivity].
      * intros i Hi. rewrite (Hu i Hi), (Ey i Hi), (Ez i Hi), Es. unfold s. unfold c. field. unfold c in Hc1. lra.
Qed.
Lemma hull_bound l (w : pt) z : hull l z -> Q (psub w z) <= sumf (fun p => Q (psub w p)) l.
Proof.
  induction 1 as [p y Hy|q l z t y Hz IH Ht Hy].
  - unfold sumf. cbn. rewrite (Q_ext (psub w y) (psub w p)); [lra|]. intros i Hi. unfold psub. rewrite (Hy i Hi). reflexivity.
  - rewrite sumf_cons. assert (H : Q (psub w y) <= t * Q (psub w q) + (1 - t) * Q (psub w z)).
    { apply Q_convex; [exact Ht|]. intros i Hi. unfold psub. rewrite (Hy i Hi). ring. }
    pose proof (Rmult_le_compat_r (Q (psub w q)) t 1 (HP _) (proj2 Ht)). pose proof (Rmult_le_compat_r (Q (psub w z)) (1 - t) 1 (HP _) ltac:(lra)). lra.
Qed.

(** * The nearest weighted mean *)
Definition rest (x q : pt) (t : R) (z : pt) : pt := fun i => x i - t * q i - (1 - t) * z i.
Definition clamp (t : R) : R := Rmax 0 (Rmin 1 t).
Lemma clamp_in t : 0 <= clamp t <= 1.
Proof. unfold clamp. split; [apply Rmax_l|]. apply Rmax_lub; [lra|apply Rmin_l]. Qed.
Lemma clamp_id t : 0 <= t <= 1 -> clamp t = t.
Proof. intros H. unfold clamp. rewrite Rmin_right, Rmax_right; lra. Qed.
Lemma clamp_lip s t : Rabs (clamp s - clamp t) <= Rabs (s - t).
Proof. unfold clamp, Rmax, Rmin. repeat destruct Rle_dec; unfold Rabs; repeat destruct Rcase_abs; lra. Qed.
Lemma nearest l : l <> [] -> forall x, exists y, hull l y /\ forall z, hull l z -> Q (psub x y) <= Q (psub x z).
Proof.
  induction l as [|q l IH]; intros Hne x; [contradiction|]. destruct l as [|p l].
  - exists q. split; [apply hull_one; reflexivity|]. intros z Hz. inversion Hz as [? ? E|? ? ? ? ? Hn]; [|inversion Hn]. subst.
    rewrite (Q_ext (psub x z) (psub x q)); [lra|]. intros i Hi. unfold psub. rewrite (E i Hi). reflexivity.
  - set (l' := p :: l) in *. assert (Hne' : l' <> []) by discriminate.
    assert (HM : forall t, 0 <= t <= 1 -> exists z, hull l' z /\ forall z', hull l' z' -> Q (rest x q t z) <= Q (rest x q t z')).
    { intros t Ht. destruct (Req_dec t 1) as [->|Ht1].
      - destruct (hull_of l' Hne') as [z Hz]. exists z. split; [exact Hz|]. intros z' _. right. apply Q_ext. intros i _. unfold rest. ring.
      - destruct (IH Hne' (fun i => (x i - t * q i) / (1 - t))) as (z & Hz & Hmin). exists z. split; [exact Hz|]. intros z' Hz'. specialize (Hmin z' Hz').
        assert (F : forall w, Q (rest x q t w) = (1 - t) * (1 - t) * Q (psub (fun i => (x i - t * q i) / (1 - t)) w)).
        { intros w. unfold Q, quad. rewrite <- rsum_scal. apply rsum_ext. intros i _. rewrite <- rsum_scal. apply rsum_ext. intros j _. unfold rest, psub. field. lra. }
        rewrite !F. apply Rmult_le_compat_l; [apply Rle_0_sqr|exact Hmin]. }
    set (S := fun t v => exists z, hull l' z /\ v = Q (rest x q t z)).
    set (D := fun t => real (Glb_Rbar (S t))).
    assert (HD : forall t, 0 <= t <= 1 -> exists z, hull l' z /\ D t = Q (rest x q t z) /\ forall z', hull l' z' -> D t <= Q (rest x q t z')).
    { intros t Ht. destruct (HM t Ht) as (z & Hz & Hmin). assert (E : D t = Q (rest x q t z)).
      { unfold D. rewrite (is_glb_Rbar_unique (S t) (Finite (Q (rest x q t z)))); [reflexivity|]. split.
        - intros v (z' & Hz' & ->). exact (Hmin z' Hz').
        - intros b Hb. apply Hb. exists z. split; [exact Hz|reflexivity]. }
      exists z. split; [exact Hz|]. split; [exact E|]. intros z' Hz'. rewrite E. exact (Hmin z' Hz'). }
    set (C1 := Q (psub x q) + sumf (fun p => Q (psub x p)) l'). set (C2 := sumf (fun p => Q (psub q p)) l').
    assert (HL : forall s t, 0 <= s <= 1 -> 0 <= t <= 1 -> D s <= D t + Rabs (t - s) * (C1 + 2 * C2)).
    { intros s t Hs Ht. destruct (HD t Ht) as (z & Hz & E & _). destruct (HD s Hs) as (_ & _ & _ & Hmin). apply Rle_trans with (1 := Hmin z Hz).
      rewrite (Q_ext (rest x q s z) (lin (rest x q t z) (t - s) (psub q z))) by (intros i _; unfold rest, lin, psub; ring).
      unfold Q at 1. rewrite quad_lin by exact HS. fold Q. rewrite <- E.
      assert (B1 : D t <= C1).
      { rewrite E. assert (H : Q (rest x q t z) <= t * Q (psub x q) + (1 - t) * Q (psub x z)) by (apply Q_convex; [exact Ht|intros i _; unfold rest, psub; ring]).
        pose proof (hull_bound _ x z Hz) as H2. pose proof (Rmult_le_compat_r (Q (psub x q)) t 1 (HP _) (proj2 Ht)). pose proof (Rmult_le_compat_r (Q (psub x z)) (1 - t) 1 (HP _) ltac:(lra)). unfold C1. lra. }
      pose proof (hull_bound _ q z Hz) as B2. fold C2 in B2. pose proof (bil_le (rest x q t z) (psub q z)) as B3. rewrite <- E in B3.
      assert (B4 : Rabs (t - s) <= 1) by (apply Rabs_le; lra).
      assert (B5 : (t - s) * (2 * bil n N (rest x q t z) (psub q z)) <= Rabs (t - s) * (C1 + C2)).
      { apply Rle_trans with (1 := Rle_abs _). rewrite Rabs_mult. apply Rmult_le_compat_l; [apply Rabs_pos|lra]. }
      assert (B6 : (t - s) * (t - s) * Q (psub q z) <= Rabs (t - s) * C2).
      { assert (Esq : (t - s) * (t - s) = Rabs (t - s) * Rabs (t - s)) by (rewrite <- Rabs_mult, Rabs_right; [reflexivity|apply Rle_ge, Rle_0_sqr]).
        rewrite Esq, Rmult_assoc. apply Rmult_le_compat_l; [apply Rabs_pos|]. apply Rle_trans with (1 * Q (psub q z)); [apply Rmult_le_compat_r; [apply HP|exact B4]|lra]. }
      change (quad n N (psub q z)) with (Q (psub q z)). lra. }
    set (C := C1 + 2 * C2). assert (HC : 0 <= C).
    { unfold C, C1, C2. pose proof (HP (psub x q)) as G1. fold Q in G1. pose proof (sumf_nonneg (fun p => Q (psub x p)) l' (fun p _ => HP _)). pose proof (sumf_nonneg (fun p => Q (psub q p)) l' (fun p _ => HP _)). unfold Q in *. lra. }
    destruct (continuity_ab_min (fun t => D (clamp t)) 0 1) as (m & Hm & Hm1); [lra| |].
    { intros c Hc. apply continuity_pt_locally. intros eps. assert (Hd : 0 < eps / (C + 1)) by (apply Rdiv_lt_0_compat; [apply cond_pos|lra]). exists (mkposreal _ Hd). intros u Hu. change (Rabs (u - c) < eps / (C + 1)) in Hu.
      pose proof (HL (clamp u) (clamp c) (clamp_in _) (clamp_in _)) as L1. pose proof (HL (clamp c) (clamp u) (clamp_in _) (clamp_in _)) as L2. fold C in L1, L2.
      pose proof (clamp_lip u c) as L3. rewrite (Rabs_minus_sym (clamp c)) in L1.
      assert (L4 : Rabs (clamp u - clamp c) * C < eps).
      { apply Rle_lt_trans with (Rabs (u - c) * C); [apply Rmult_le_compat_r; [exact HC|exact L3]|]. apply Rle_lt_trans with (Rabs (u - c) * (C + 1)); [apply Rmult_le_compat_l; [apply Rabs_pos|lra]|].
        apply Rlt_le_trans with (eps / (C + 1) * (C + 1)); [apply Rmult_lt_compat_r; [lra|exact Hu]|right; field; lra]. }
      apply Rabs_def1; lra. }
    rewrite (clamp_id m Hm1) in Hm. destruct (HD m Hm1) as (z & Hz & E & _).
    exists (fun i => m * q i + (1 - m) * z i). split; [apply (hull_cons _ _ z m); [exact Hz|exact Hm1|reflexivity]|].
    intros w Hw. inversion Hw as [|? ? w1 t ? Hw1 Ht Ew]; subst.
    rewrite (Q_ext (psub x (fun i => m * q i + (1 - m) * z i)) (rest x q m z)) by (intros i _; unfold psub, rest; ring).
    rewrite (Q_ext (psub x w) (rest x q t w1)) by (intros i Hi; unfold psub, rest; rewrite (Ew i Hi); ring).
    rewrite <- E. apply Rle_trans with (D t); [specialize (Hm t Ht); rewrite (clamp_id t Ht) in Hm; exact Hm|].
    destruct (HD t Ht) as (_ & _ & _ & Hmin). exact (Hmin w1 Hw1).
Qed.
Lemma nearer l : l <> [] -> forall x, exists y, hull l y /\ forall p, In p l -> Q (psub y p) + Q (psub x y) <= Q (psub x p).
Proof.
  intros Hne x. destruct (nearest l Hne x) as (y & Hy & Hmin). exists y. split; [exact Hy|]. intros p Hp.
  set (u := psub x y). set (v := psub p y).
  assert (HB : bil n N u v <= 0).
  { destruct (Rle_lt_dec (bil n N u v) 0) as [H|H]; [exact H|exfalso]. set (b := bil n N u v) in *. set (q := Q v). assert (Hq : 0 <= q) by apply HP.
    set (e := b / (b + q)). assert (He : 0 < e <= 1).
    { unfold e. split; [apply Rdiv_lt_0_compat; lra|]. apply Rmult_le_reg_r with (b + q); [lra|]. unfold Rdiv. rewrite Rmult_assoc, Rinv_l by lra. lra. }
    assert (Hh : hull l (fun i => e * p i + (1 - e) * y i)) by (apply (hull_mix l p y e); [exact (hull_in l p Hp)|exact Hy|lra|reflexivity]).
    specialize (Hmin _ Hh). rewrite (Q_ext (psub x (fun i => e * p i + (1 - e) * y i)) (lin u (- e) v)) in Hmin by (intros i _; unfold psub, lin, u, v, psub; ring).
    assert (Ee : Q (lin u (- e) v) = Q u + 2 * - e * b + - e * - e * q) by (unfold Q at 1; rewrite quad_lin by exact HS; reflexivity).
    rewrite Ee in Hmin. fold u in Hmin. assert (H1 : 2 * e * b <= e * e * q) by lra.
    assert (H2 : 2 * b <= e * q). { apply Rmult_le_reg_l with e; [lra|]. lra. }
    assert (H3 : e * q <= b). { unfold e. apply Rmult_le_reg_r with (b + q); [lra|]. replace (b / (b + q) * q * (b + q)) with (b * q) by (field; lra). pose proof (Rmult_lt_0_compat b b H H). lra. }
    lra. }
  rewrite (Q_ext (psub x p) (lin u (-1) v)) by (intros i _; unfold lin, u, v, psub; ring). unfold Q at 3. rewrite quad_lin by exact HS.
  assert (E : Q (psub y p) = quad n N v). { unfold Q, quad. apply rsum_ext. intros i _. apply rsum_ext. intros j _. unfold v, psub. ring. }
  rewrite E. fold u. change (Q u) with (quad n N u). lra.
Qed.
End psd.

(** * The density as a sum of kernels *)
Lemma prof_decr d r s : 0 <= r -> r <= s -> spec_prof d s <= spec_prof d r.
Proof.
  intros H0 H. unfold spec_prof. destruct d.
  - destruct (Req_dec r s) as [->|Hne]; [lra|left; apply exp_increasing; lra].
  - destruct (Rle_dec s 1), (Rle_dec r 1); lra.
  - destruct (Rle_dec s 1), (Rle_dec r 1); lra.
  - destruct (Rle_dec s 1) as [a|a], (Rle_dec r 1) as [b|b]; try lra; [|repeat apply Rmult_le_pos; lra].
    assert (H1 : (1 - s) * (1 - s) <= (1 - r) * (1 - r)) by (apply Rmult_le_compat; lra). apply Rmult_le_compat; [apply Rmult_le_pos; lra|lra|exact H1|lra].
Qed.
Lemma as_sum n data ws d M K (prob : bool) f : (1 <= n)%nat -> built_kde n data ws d M None K -> kde_density K prob n None PNone = Ok f ->
  exists N c, is_inverse n M N /\ symmetric n N /\ posdef n N /\ 0 < c /\ forall x, f x = c * spec_sum d n N (combine data ws) x.
Proof.
  intros Hn HB Hf. destruct (built_inv _ _ _ _ _ _ _ HB) as (_ & _ & _ & _ & _ & Hl & _ & Hw & _ & _ & Hs & Hpd).
  destruct (kernel_density_plain d n M data (Some ws) Hs Hpd) as [N [W [HN [HW [HsN [Hinv _]]]]]]; [intros ? E; injection E as <-; exact Hl|].
  destruct (top_textbook n data ws d M K N Hn HB Hinv) as [Z [g [h [HZ [_ [Hg [Hh Hv]]]]]]].
  assert (HpN : posdef n N) by (intros x Hx; exact (chol_quad_pos n N W x HW HsN Hx)).
  destruct prob.
  - exists N, (/ Z / lsum ws). split; [exact Hinv|]. split; [exact HsN|]. split; [exact HpN|]. split; [apply Rdiv_lt_0_compat; [apply Rinv_0_lt_compat; exact HZ|exact Hw]|].
    intros x. unfold kde_pdf in Hh. rewrite Hf in Hh. injection Hh as <-. destruct (Hv x) as [E1 E2]. rewrite E2, E1. field. lra.
  - exists N, (/ Z). split; [exact Hinv|]. split; [exact HsN|]. split; [exact HpN|]. split; [apply Rinv_0_lt_compat; exact HZ|].
    intros x. rewrite Hf in Hg. injection Hg as <-. destruct (Hv x) as [E1 _]. rewrite E1. field. lra.
Qed.
Lemma pd_nonneg n N : posdef n N -> forall x, 0 <= quad n N x.
Proof.
  intros H x. destruct (Classical_Prop.classic (exists i, (i < n)%nat /\ x i <> 0)) as [E|E]; [left; exact (H x E)|].
  right. unfold quad. symmetry. apply rsum_zero_ext. intros i Hi. apply rsum_zero_ext. intros j Hj. assert (Ez : x i = 0) by (apply Classical_Prop.NNPP; intros Hne; apply E; exists i; split; assumption). rewrite Ez. ring.
Qed.
Lemma spec_sum_le d n N data ws x y : (forall w, In w ws -> 0 <= w) -> (forall u, 0 <= quad n N u) ->
  (forall p, In p data -> quad n N (psub y p) <= quad n N (psub x p)) -> spec_sum d n N (combine data ws) x <= spec_sum d n N (combine data ws) y.
Proof.
  intros Hw HP H. unfold spec_sum. apply sumf_le. intros [p w] Hin. cbn [fst snd]. apply Rmult_le_compat_l; [exact (Hw w (in_combine_r _ _ _ _ Hin))|].
  apply prof_decr; [apply HP|exact (H p (in_combine_l _ _ _ _ Hin))].
Qed.
Lemma spec_sum_lt n N : forall data ws x y, length ws = length data -> (forall w, In w ws -> 0 <= w) -> 0 < lsum ws ->
  (forall p, In p data -> quad n N (psub y p) < quad n N (psub x p)) -> spec_sum Gaussian n N (combine data ws) x < spec_sum Gaussian n N (combine data ws) y.
Proof.
  induction data as [|p data IH]; intros [|w ws] x y L Hnn Hw H; try discriminate; [cbn in Hw; lra|]. unfold spec_sum in *. cbn [combine]. rewrite !sumf_cons. cbn [fst snd].
  assert (Hk : spec_prof Gaussian (quad n N (psub x p)) < spec_prof Gaussian (quad n N (psub y p))). { unfold spec_prof. apply exp_increasing. pose proof (H p (or_introl eq_refl)). lra. }
  pose proof (Hnn w (or_introl eq_refl)) as [Hw0|<-].
  - pose proof (Rmult_lt_compat_l w _ _ Hw0 Hk). enough (spec_sum Gaussian n N (combine data ws) x <= spec_sum Gaussian n N (combine data ws) y) by (unfold spec_sum in *; lra).
    unfold spec_sum. apply sumf_le. intros [q v] Hin. cbn [fst snd]. apply Rmult_le_compat_l; [exact (Hnn v (or_intror (in_combine_r _ _ _ _ Hin)))|].
    unfold spec_prof. left. apply exp_increasing. pose proof (H q (or_intror (in_combine_l _ _ _ _ Hin))). lra.
  - rewrite !Rmult_0_l, !Rplus_0_l. apply IH; [cbn in L; lia|intros v Hv; apply Hnn; right; exact Hv|cbn in Hw; change (0 < 0 + lsum ws) in Hw; lra|intros q Hq; apply H; right; exact Hq].
Qed.

(** * Theorems *)
Lemma high_among n data ws d M K (prob : bool) f : (1 <= n)%nat -> built_kde n data ws d M None K -> kde_density K prob n None PNone = Ok f ->
  forall x, exists y, among n data y /\ f x <= f y.
Proof.
  intros Hn HB Hf x. destruct (built_inv _ _ _ _ _ _ _ HB) as (_ & _ & Hne & _ & _ & Hl & Hnn & _).
  destruct (as_sum _ _ _ _ _ _ _ _ Hn HB Hf) as (N & c & _ & Hs & Hp & Hc & Ef).
  destruct (nearer n N Hs (pd_nonneg n N Hp) data Hne x) as (y & Hy & H). exists y. split; [exact (hull_among n data y Hy)|]. rewrite !Ef. apply Rmult_le_compat_l; [lra|].
  apply spec_sum_le; [exact Hnn|apply pd_nonneg; exact Hp|]. intros p Hin. pose proof (H p Hin). pose proof (pd_nonneg n N Hp (psub x y)). lra.
Qed.
Lemma among_same n data y z : among n data y -> (forall i, (i < n)%nat -> z i = y i) -> among n data z.
Proof. intros (ls & H1 & H2 & H3 & H4) E. exists ls. split; [exact H1|]. split; [exact H2|]. split; [exact H3|]. intros i Hi. rewrite (E i Hi). apply H4, Hi. Qed.
Lemma high_gaussian n data ws M K (prob : bool) f : (1 <= n)%nat -> built_kde n data ws Gaussian M None K -> kde_density K prob n None PNone = Ok f ->
  forall x, ~ among n data x -> exists y, among n data y /\ f x < f y.
Proof.
  intros Hn HB Hf x Hx. destruct (built_inv _ _ _ _ _ _ _ HB) as (_ & _ & Hne & _ & _ & Hl & Hnn & Hw & _).
  destruct (as_sum _ _ _ _ _ _ _ _ Hn HB Hf) as (N & c & _ & Hs & Hp & Hc & Ef).
  destruct (nearer n N Hs (pd_nonneg n N Hp) data Hne x) as (y & Hy & H). pose proof (hull_among n data y Hy) as Ha. exists y. split; [exact Ha|]. rewrite !Ef. apply Rmult_lt_compat_l; [exact Hc|].
  apply spec_sum_lt; [exact Hl|exact Hnn|exact Hw|]. intros p Hin. pose proof (H p Hin). enough (0 < quad n N (psub x y)) by lra. apply Hp.
  apply Classical_Prop.NNPP. intros E. apply Hx. apply (among_same n data y); [exact Ha|]. intros i Hi. apply Classical_Prop.NNPP. intros Hd. apply E. exists i. split; [exact Hi|unfold psub; lra].
Qed.
Lemma quad_moved n M N a u t : is_inverse n M N -> symmetric n M -> symmetric n N ->
  quad n N (lin u t (fun i => rsum n (fun j => M i j * a j))) = quad n N u + 2 * t * dot n a u + t * t * quad n M a.
Proof.
  intros Hi HM HN. rewrite quad_lin by exact HN. set (v := fun i => rsum n (fun j => M i j * a j)).
  assert (Ev : forall i, (i < n)%nat -> rsum n (fun j => N i j * v j) = a i).
  { intros i Hin. unfold v. transitivity (rsum n (fun j => rsum n (fun k => N i j * (M j k * a k)))); [apply rsum_ext; intros j _; rewrite rsum_scal; reflexivity|].
    rewrite rsum_swap. transitivity (rsum n (fun k => ident i k * a k)); [|exact (rsum_ident_l n a i Hin)]. apply rsum_ext. intros k Hk. destruct (Hi i k Hin Hk) as [_ E]. rewrite <- E, <- rsum_scal_r. apply rsum_ext. intros j _. ring. }
  assert (E1 : bil n N u v = dot n a u).
  { unfold bil, dot. apply rsum_ext. intros i Hin. rewrite <- (Ev i Hin), <- rsum_scal_r. apply rsum_ext. intros j _. ring. }
  assert (E2 : quad n N v = quad n M a).
  { transitivity (rsum n (fun i => v i * a i)).
    - unfold quad. apply rsum_ext. intros i Hin. rewrite <- (Ev i Hin), <- rsum_scal. apply rsum_ext. intros j _. ring.
    - unfold quad, v. apply rsum_ext. intros i Hin. rewrite <- rsum_scal_r. apply rsum_ext. intros j _. ring. }
  rewrite E1, E2. reflexivity.
Qed.
Lemma dot_sub n a x p : dot n a (psub x p) = dot n a x - dot n a p.
Proof. unfold dot, psub. rewrite <- rsum_minus. apply rsum_ext. intros i _. ring. Qed.
Lemma quad_grow n M N a x p s t c : is_inverse n M N -> symmetric n M -> symmetric n N -> posdef n M -> dot n a p <= c -> c <= dot n a x -> 0 <= s <= t ->
  quad n N (psub (moved n M a x s) p) <= quad n N (psub (moved n M a x t) p)
  /\ ((exists i, (i < n)%nat /\ a i <> 0) -> s < t -> quad n N (psub (moved n M a x s) p) < quad n N (psub (moved n M a x t) p)).
Proof.
  intros Hi HM HN HP Hd Hc Hst.
  assert (E : forall r, quad n N (psub (moved n M a x r) p) = quad n N (psub x p) + 2 * r * dot n a (psub x p) + r * r * quad n M a).
  { intros r. rewrite <- (quad_moved n M N a (psub x p) r Hi HM HN). apply quad_ext; [intros i j _ _; reflexivity|]. intros i _. unfold psub, moved, lin. ring. }
  rewrite !E, dot_sub. pose proof (pd_nonneg n M HP a) as Hq. set (g := dot n a x - dot n a p). assert (Hg : 0 <= g) by (unfold g; lra).
  pose proof (Rmult_le_compat_r g s t Hg (proj2 Hst)). assert (Hss : s * s <= t * t) by (apply Rmult_le_compat; lra).
  pose proof (Rmult_le_compat_r (quad n M a) _ _ Hq Hss). split; [lra|]. intros Ha Hlt. pose proof (HP a Ha) as Hq1.
  assert (Hs2 : s * s < t * t) by (apply Rmult_le_0_lt_compat; lra). pose proof (Rmult_lt_compat_r (quad n M a) _ _ Hq1 Hs2). lra.
Qed.
Lemma falls n data ws d M K (prob : bool) f a c x : (1 <= n)%nat -> built_kde n data ws d M None K -> kde_density K prob n None PNone = Ok f ->
  (forall p, In p data -> dot n a p <= c) -> c <= dot n a x -> forall s t, 0 <= s <= t -> f (moved n M a x t) <= f (moved n M a x s).
Proof.
  intros Hn HB Hf Ha Hx s t Hst. destruct (built_inv _ _ _ _ _ _ _ HB) as (_ & _ & Hne & _ & _ & Hl & Hnn & Hw & _ & _ & HM & HpM).
  destruct (as_sum _ _ _ _ _ _ _ _ Hn HB Hf) as (N & k & Hi & Hs & Hp & Hc & Ef). rewrite !Ef. apply Rmult_le_compat_l; [lra|].
  apply spec_sum_le; [exact Hnn|apply pd_nonneg; exact Hp|]. intros p Hin. apply (quad_grow n M N a x p s t c Hi HM Hs HpM (Ha p Hin) Hx Hst).
Qed.
Lemma falls_gaussian n data ws M K (prob : bool) f a c x : (1 <= n)%nat -> built_kde n data ws Gaussian M None K -> kde_density K prob n None PNone = Ok f ->
  (forall p, In p data -> dot n a p <= c) -> c <= dot n a x -> (exists i, (i < n)%nat /\ a i <> 0) -> forall s t, 0 <= s < t -> f (moved n M a x t) < f (moved n M a x s).
Proof.
  intros Hn HB Hf Ha Hx Hne0 s t Hst. destruct (built_inv _ _ _ _ _ _ _ HB) as (_ & _ & Hne & _ & _ & Hl & Hnn & Hw & _ & _ & HM & HpM).
  destruct (as_sum _ _ _ _ _ _ _ _ Hn HB Hf) as (N & k & Hi & Hs & Hp & Hc & Ef). rewrite !Ef. apply Rmult_lt_compat_l; [exact Hc|].
  apply spec_sum_lt; [exact Hl|exact Hnn|exact Hw|]. intros p Hin. destruct (quad_grow n M N a x p s t c Hi HM Hs HpM (Ha p Hin) Hx ltac:(lra)) as [_ H]. apply H; [exact Hne0|lra].
Qed.
Lemma falls_one data ws d M K (prob : bool) f : built_kde 1 data ws d M None K -> kde_density K prob 1 None PNone = Ok f ->
  (forall x y, (forall p, In p data -> p O <= x) -> x <= y -> f (pt1 y) <= f (pt1 x)) /\ (forall x y, (forall p, In p data -> y <= p O) -> x <= y -> f (pt1 x) <= f (pt1 y)).
Proof.
  intros HB Hf. destruct (built_inv _ _ _ _ _ _ _ HB) as (_ & _ & Hne & _ & _ & Hl & Hnn & Hw & _ & _ & HM & HpM).
  destruct (as_sum _ _ _ _ _ _ _ _ (le_n 1) HB Hf) as (N & k & Hi & Hs & Hp & Hc & Ef).
  assert (HN0 : 0 <= N O O). { pose proof (pd_nonneg 1 N Hp (fun _ => 1)) as H. rewrite quad_1 in H. lra. }
  split; intros x y Ha Hxy; rewrite !Ef; (apply Rmult_le_compat_l; [lra|]); apply spec_sum_le; try exact Hnn; try (apply pd_nonneg; exact Hp); intros p Hin; rewrite !quad_1; (apply Rmult_le_compat_l; [exact HN0|]); unfold psub, pt1; pose proof (Ha p Hin).
  - apply Rmult_le_compat; lra.
  - replace ((y - p O) * (y - p O)) with ((p O - y) * (p O - y)) by ring. replace ((x - p O) * (x - p O)) with ((p O - x) * (p O - x)) by ring. apply Rmult_le_compat; lra.
Qed.

(** * Refutations *)
Definition tilted : mat := fun i j => match i, j with O, O => 2 | O, S O => 1 | S O, O => 1 | S O, S O => 1 | _, _ => 0 end.
Definition tilted_inv : mat := fun i j => match i, j with O, O => 1 | O, S O => -1 | S O, O => -1 | S O, S O => 2 | _, _ => 0 end.
Lemma tilted_built : exists K, built_kde 2 [pt1 0] [1] Gaussian tilted None K.
Proof.
  exists (mkKDE 2 [pt1 0] None (neff_of 1 None) (Some (mkKernel Gaussian 2 tilted)) None). split.
  - exists WNone, (BwAtom (BNum 1)), false, None, (Some tilted), None. split; [left; split; reflexivity|]. unfold kde_init. cbn [length Nat.eqb check_weights bind set_bandwidth compute_bandwidth].
    unfold kernel_init. rewrite kernel_matrix_1. reflexivity.
  - split; [reflexivity|]. split.
    + intros [|[|i]] [|[|j]] Hi Hj; try lia; reflexivity.
    + intros x (i & Hi & Hx). unfold quad. cbn. set (a := x O) in *. set (b := x 1%nat) in *.
      replace (0 + (0 + a * 2 * a + a * 1 * b) + (0 + b * 1 * a + b * 1 * b)) with (a * a + (a + b) * (a + b)) by ring.
      pose proof (Rle_0_sqr a) as H1. pose proof (Rle_0_sqr (a + b)) as H2. unfold Rsqr in *.
      destruct (Req_dec a 0) as [Ha|Ha]; [|pose proof (Rsqr_pos_lt a Ha) as H3; unfold Rsqr in H3; lra].
      assert (Hb : a + b <> 0). { rewrite Ha, Rplus_0_l. destruct i as [|[|i]]; [contradiction (Hx Ha)|exact Hx|lia]. }
      pose proof (Rsqr_pos_lt _ Hb) as H3; unfold Rsqr in H3; lra.
Qed.
Lemma tilted_inverse : is_inverse 2 tilted tilted_inv.
Proof. intros [|[|i]] [|[|j]] Hi Hj; try lia; cbn; unfold ident; cbn; lra. Qed.
Lemma one_parameter_refuted : exists M K f x y, built_kde 2 [pt1 0] [1] Gaussian M None K /\ kde_density K true 2 None PNone = Ok f
  /\ 0 < x O < y O /\ x 1%nat = y 1%nat /\ f x < f y.
Proof.
  destruct tilted_built as [K HB]. destruct (density_refl_exists_none 2 _ _ _ _ _ true HB ltac:(lia)) as [f Hf].
  exists tilted, K, f, (fun i => match i with O => 1 | _ => 2 end), (fun i => 2). split; [exact HB|]. split; [exact Hf|]. split; [lra|]. split; [reflexivity|].
  destruct (as_sum _ _ _ _ _ _ _ _ (le_S _ _ (le_n 1)) HB Hf) as (N & c & Hi & Hs & Hp & Hc & Ef). rewrite !Ef. apply Rmult_lt_compat_l; [exact Hc|].
  unfold spec_sum, sumf. cbn [combine map lsum fold_right fst snd]. pose proof (inverse_unique 2 tilted N tilted_inv Hi tilted_inverse) as Ha.
  rewrite !(quad_ext 2 N tilted_inv _ _ Ha (fun i _ => eq_refl)). unfold spec_prof, quad, psub, pt1, tilted_inv. cbn.
  match goal with |- 1 * exp ?a + 0 < 1 * exp ?b + 0 => assert (H : exp a < exp b) by (apply exp_increasing; lra) end. lra.
Qed.
Lemma boundary_refuted : exists K f x, built_kde 1 [pt1 0] [1] Gaussian ident (Some [Some (None, Some (1 / 2))]) K /\ kde_density K true 1 None PNone = Ok f
  /\ forall y, among 1 [pt1 0] y -> f y < f x.
Proof.
  destruct (unit_kde 1 [pt1 0] [1] Gaussian (Some [Some (None, Some (1 / 2))])) as (K & _ & HB & _); [discriminate|reflexivity|intros v [<-|[]]; lra|exists 1; split; [left; reflexivity|lra]|].
  destruct (top_reflected 1 _ _ _ _ _ _ ident true [Some (None, Some (1 / 2))] (le_n 1) HB (ident_inverse 1) eq_refl) as (Z & f & HZ & _ & Hf & Hv).
  exists K, f, (pt1 (1 / 2)). split; [exact HB|]. split; [rewrite (density_as_kernel _ _ _ _ _ _ _ true None HB); rewrite (density_as_kernel _ _ _ _ _ _ _ true _ HB) in Hf; exact Hf|].
  assert (V : forall x : pt, x O <= 1 / 2 -> f x = (exp (- (x O * x O / 2)) + exp (- ((x O - 1) * (x O - 1) / 2))) / Z).
  { intros x Hx. destruct (Hv x) as (s0 & s & E & H0 & _ & Hs). assert (Hw : within_from [Some (None, Some (1 / 2))] x 0).
    { intros [|[|j]] _ lo hi Ej; cbn in Ej; try discriminate. injection Ej as <- <-. split; [discriminate|]. intros v Ev. injection Ev as <-. exact Hx. }
    rewrite E, (H0 Hw). cbn [rsum]. destruct (Hs O (le_n 1)) as [Hs0 _]. rewrite (Hs0 Hw). unfold mass, spec_sum, mirrored_data, sumf. cbn [nth boundaries app map combine lsum fold_right fst snd].
    rewrite !quad_1. unfold psub, mirrored, ident, spec_prof, pt1. cbn [Nat.eqb]. destruct (Nat.eq_dec 0 0) as [_|[]]; [|reflexivity].
    replace (1 * ((x O - 0) * (x O - 0))) with (x O * x O) by ring. replace (1 * ((x O - (2 * (1 / 2) - 0)) * (x O - (2 * (1 / 2) - 0)))) with ((x O - 1) * (x O - 1)) by field. field. lra. }
  intros y (ls & L & _ & Hsum & Hy). destruct ls as [|l [|? ?]]; try discriminate. cbn in Hsum. specialize (Hy O (le_n 1)). unfold sumf in Hy. cbn in Hy. unfold pt1 in Hy. assert (Ey : y O = 0) by lra.
  rewrite (V y) by lra. rewrite (V (pt1 (1 / 2))) by (unfold pt1; lra). unfold pt1. rewrite Ey. apply Rmult_lt_compat_r; [apply Rinv_0_lt_compat; exact HZ|].
  replace (- (0 * 0 / 2)) with 0 by field. rewrite exp_0. replace (- ((0 - 1) * (0 - 1) / 2)) with (- (1 / 8) + (- (1 / 8) + (- (1 / 8) + - (1 / 8)))) by field.
  replace (- (1 / 2 * (1 / 2) / 2)) with (- (1 / 8)) by field. replace (- ((1 / 2 - 1) * (1 / 2 - 1) / 2)) with (- (1 / 8)) by field. rewrite !exp_plus.
  set (u := exp (- (1 / 8))). assert (Hu : 7 / 8 < u) by (unfold u; pose proof (exp_ineq1 (- (1 / 8)) ltac:(lra)); lra).
  assert (Hu1 : u < 1) by (apply Rlt_le_trans with (exp 0); [apply exp_increasing; lra|rewrite exp_0; lra]).
  assert (H2 : 7 / 8 * (7 / 8) < u * u) by (apply Rmult_le_0_lt_compat; lra).
  assert (H3 : 0 < u * (u * u)) by (repeat apply Rmult_lt_0_compat; lra).
  assert (H : 0 < (1 - u) * (u * (u * u) + u * u + u - 1)) by (apply Rmult_lt_0_compat; lra). lra.
Qed.

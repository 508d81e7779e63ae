(** Proofs about midpoints and centroids. *)
From Coq Require Import ZArith Permutation.
From Coquelicot Require Import Coquelicot.
From Verif Require Import Base ModelLinAlg ModelKernels ModelKDE ModelInterp ModelResample ModelUtils ModelNd SpecUtils SpecNd ProofUtils ProofUtils2 ProofUtils3 ProofUtils4 ProofNd ProofNd2.
Open Scope R_scope.
Notation length := List.length.

(* ------------------------------------------------------------ midpoints *)
Definition eqA (a b : nda) : Prop := shp a = shp b /\ forall idx, at_ a idx = at_ b idx.
Definition eqr (x y : res nda) : Prop :=
  match x, y with Ok a, Ok b => eqA a b | Err e, Err e' => e = e' | _, _ => False end.
Lemma eqr_refl x : eqr x x.
Proof. destruct x as [a|e]; cbn; [split; reflexivity|reflexivity]. Qed.
Lemma eqr_trans x y z : eqr x y -> eqr y z -> eqr x z.
Proof. destruct x, y, z; cbn; try tauto; try congruence. intros [H1 H2] [H3 H4]. split; [congruence|]. intros idx. rewrite H2. apply H4. Qed.
Lemma midpoints_1d_ext a b ax : eqA a b -> eqr (midpoints_1d a ax) (midpoints_1d b ax).
Proof.
  intros [Hs Hv]. unfold midpoints_1d. rewrite <- Hs. destruct (norm_axis (length (shp a)) ax) as [k|]; [|reflexivity].
  destruct (Nat.ltb (nth k (shp a) 0%nat) 2); [reflexivity|]. split; [reflexivity|]. intros idx. cbn. rewrite !Hv. reflexivity.
Qed.
Lemma midpoints_loop_ext axes : forall a b, eqA a b -> eqr (midpoints_loop a axes) (midpoints_loop b axes).
Proof.
  induction axes as [|ax axes IH]; intros a b H; cbn [midpoints_loop]; [exact H|]. pose proof (midpoints_1d_ext a b ax H) as H1.
  destruct (midpoints_1d a ax) as [a'|e], (midpoints_1d b ax) as [b'|e']; cbn [bind]; try contradiction; [apply IH, H1|exact H1].
Qed.
Definition valid_axis (nd : nat) (z : Z) : Prop := (- Z.of_nat nd <= z < Z.of_nat nd)%Z.
Lemma norm_axis_valid nd z : valid_axis nd z -> exists k, norm_axis nd z = Some k /\ (k < nd)%nat.
Proof.
  unfold valid_axis, norm_axis. intros H. destruct (Z.leb_spec 0 z), (Z.ltb_spec z (Z.of_nat nd)); cbn [andb]; try lia.
  - exists (Z.to_nat z). split; [reflexivity|lia].
  - destruct (Z.leb_spec (- Z.of_nat nd) z), (Z.ltb_spec z 0); cbn [andb]; try lia. eexists. split; [reflexivity|]. lia.
Qed.
Lemma midpoints_1d_shape a ax b : midpoints_1d a ax = Ok b -> length (shp b) = length (shp a).
Proof.
  unfold midpoints_1d. destruct (norm_axis _ ax) as [k|]; [|discriminate]. destruct (Nat.ltb _ 2); [discriminate|]. intros E. injection E as <-. cbn. apply set_nth_length.
Qed.
Lemma midpoints_swap a x y : valid_axis (length (shp a)) x -> valid_axis (length (shp a)) y ->
  eqr (do b <- midpoints_1d a x ;; midpoints_1d b y) (do b <- midpoints_1d a y ;; midpoints_1d b x).
Proof.
  intros Hx Hy. destruct (norm_axis_valid _ _ Hx) as [k [Ek Hk]]. destruct (norm_axis_valid _ _ Hy) as [j [Ej Hj]].
  unfold midpoints_1d at 1 3. rewrite Ek, Ej. destruct (Nat.eq_dec k j) as [->|Hne].
  - destruct (Nat.ltb (nth j (shp a) 0%nat) 2); [reflexivity|]. cbn [bind]. unfold midpoints_1d. cbn [shp at_]. rewrite set_nth_length, Ek, Ej. apply eqr_refl.
  - destruct (Nat.ltb (nth k (shp a) 0%nat) 2) eqn:E1, (Nat.ltb (nth j (shp a) 0%nat) 2) eqn:E2; cbn [bind]; unfold midpoints_1d; cbn [shp at_]; rewrite ?set_nth_length, ?Ek, ?Ej, ?set_nth_other, ?E1, ?E2 by congruence; try reflexivity.
    split; [cbn; apply set_nth_comm; congruence|]. intros idx. cbn [at_]. rewrite !set_nth_other by congruence. rewrite (set_nth_comm k j) by exact Hne. lra.
Qed.
Lemma midpoints_perm axes axes' : Permutation axes axes' -> forall a, Forall (valid_axis (length (shp a))) axes -> eqr (midpoints_loop a axes) (midpoints_loop a axes').
Proof.
  induction 1 as [|x l l' _ IH|x y l|l1 l2 l3 H12 IH1 H23 IH2]; intros a HF.
  - apply eqr_refl.
  - cbn [midpoints_loop]. destruct (midpoints_1d a x) as [b|e] eqn:E; cbn [bind]; [|reflexivity]. apply IH. rewrite (midpoints_1d_shape _ _ _ E). inversion HF; assumption.
  - inversion HF as [|? ? Hy HF']; subst. inversion HF' as [|? ? Hx _]; subst. pose proof (midpoints_swap a y x Hy Hx) as Hs. cbn [midpoints_loop].
    destruct (midpoints_1d a y) as [b|e], (midpoints_1d a x) as [c|e']; cbn [bind] in *.
    + destruct (midpoints_1d b x) as [b2|e], (midpoints_1d c y) as [c2|e']; cbn [bind]; try contradiction; [apply midpoints_loop_ext, Hs|exact Hs].
    + destruct (midpoints_1d b x); cbn [bind] in *; [contradiction|exact Hs].
    + destruct (midpoints_1d c y); cbn [bind] in *; [contradiction|exact Hs].
    + exact Hs.
  - apply eqr_trans with (midpoints_loop a l2); [apply IH1, HF|]. apply IH2. rewrite Forall_forall in *. intros z Hz. apply HF. apply Permutation_in with l2; [apply Permutation_sym, H12|exact Hz].
Qed.
Theorem midpoints_order a axes axes' : Permutation axes axes' -> (forall z, In z axes -> (- Z.of_nat (length (shp a)) <= z < Z.of_nat (length (shp a)))%Z) ->
  (exists r r', midpoints a (Some axes) = Ok r /\ midpoints a (Some axes') = Ok r' /\ same_nda r r')
  \/ (midpoints a (Some axes) = Err RuntimeError /\ midpoints a (Some axes') = Err RuntimeError).
Proof.
  intros HP HF. unfold midpoints. assert (HF' : Forall (valid_axis (length (shp a))) axes) by (apply Forall_forall; exact HF). pose proof (midpoints_perm axes axes' HP a HF') as H.
  assert (He : forall b e l, Forall (valid_axis (length (shp b))) l -> midpoints_loop b l = Err e -> e = RuntimeError).
  { intros b e l. revert b. induction l as [|z l IH]; intros b Hl E; [discriminate E|]. inversion Hl as [|? ? Hz Hl']; subst. cbn [midpoints_loop] in E.
    destruct (midpoints_1d b z) as [c|e'] eqn:E1; cbn [bind] in E.
    - apply (IH c); [rewrite (midpoints_1d_shape _ _ _ E1); exact Hl'|exact E].
    - injection E as ->. unfold midpoints_1d in E1. destruct (norm_axis_valid _ _ Hz) as [k [Ek _]]. rewrite Ek in E1. destruct (Nat.ltb _ 2); [injection E1 as <-; reflexivity|discriminate E1]. }
  destruct (midpoints_loop a axes) as [r|e] eqn:E1, (midpoints_loop a axes') as [r'|e'] eqn:E2; try contradiction.
  - left. exists r, r'. split; [reflexivity|]. split; [reflexivity|]. split; [apply H|]. intros idx _. apply H.
  - right. pose proof (He a e axes HF' E1) as ->. cbn in H. subst e'. split; reflexivity.
Qed.

Theorem midpoints_vec l : (2 <= length l)%nat -> exists r, midpoints (vec l) None = Ok r /\ midpoints (vec l) (Some [(-1)%Z]) = Ok r
  /\ shp r = [(length l - 1)%nat]
  /\ (forall i, (S i < length l)%nat -> at_ r [i] = (nth i l 0 + nth (S i) l 0) / 2)
  /\ (incr_list l -> (forall i, (S i < length l)%nat -> nth i l 0 < at_ r [i] < nth (S i) l 0)
                     /\ forall i j, (i < j)%nat -> (S j < length l)%nat -> at_ r [i] < at_ r [j]).
Proof.
  intros H. unfold midpoints, vec. cbn [shp length seq map midpoints_loop]. unfold midpoints_1d. cbn [shp length norm_axis]. change (norm_axis 1 (Z.of_nat 0)) with (Some 0%nat). change (norm_axis 1 (-1)) with (Some 0%nat).
  cbn [nth]. destruct (Nat.ltb_spec (length l) 2); [lia|]. cbn [bind midpoints_loop]. eexists. split; [reflexivity|]. split; [reflexivity|]. split; [reflexivity|].
  cbn [at_ nth set_nth]. split; [intros i _; lra|]. intros Hi.
  assert (Hlt : forall i, (S i < length l)%nat -> nth i l 0 < nth (S i) l 0) by (intros i Hil; apply Hi; lia). split.
  - intros i Hil. specialize (Hlt i Hil). lra.
  - intros i j Hij Hj. assert (nth i l 0 < nth j l 0) by (apply Hi; lia). assert (nth (S i) l 0 < nth (S j) l 0) by (apply Hi; lia). lra.
Qed.
Theorem midpoints_short l : (length l < 2)%nat -> midpoints (vec l) None = Err RuntimeError.
Proof. intros H. unfold midpoints, vec. cbn. destruct (Nat.leb_spec (length l) 1); [reflexivity|lia]. Qed.
Theorem midpoints_bad_axis a z : (z < - Z.of_nat (length (shp a)) \/ Z.of_nat (length (shp a)) <= z)%Z -> midpoints a (Some [z]) = Err IndexError.
Proof.
  intros H. unfold midpoints. cbn [midpoints_loop]. unfold midpoints_1d, norm_axis. destruct (Z.leb_spec 0 z), (Z.ltb_spec z (Z.of_nat (length (shp a)))); cbn [andb]; try lia;
  destruct (Z.leb_spec (- Z.of_nat (length (shp a))) z), (Z.ltb_spec z 0); cbn [andb]; try lia; reflexivity.
Qed.
Theorem midpoints_log_vec l : (2 <= length l)%nat -> (forall x, In x l -> 0 < x) -> exists r, midpoints_log (vec l) None = Ok r /\ shp r = [(length l - 1)%nat]
  /\ forall i, (S i < length l)%nat -> at_ r [i] = sqrt (nth i l 0 * nth (S i) l 0).
Proof.
  intros H Hp. unfold midpoints_log, midpoints, vec, map_nd. cbn [shp at_ length seq map midpoints_loop]. unfold midpoints_1d. cbn [shp length]. change (norm_axis 1 (Z.of_nat 0)) with (Some 0%nat).
  cbn [nth]. destruct (Nat.ltb_spec (length l) 2); [lia|]. cbn [bind midpoints_loop]. eexists. split; [reflexivity|]. split; [reflexivity|].
  cbn [shp at_ nth set_nth]. intros i Hi.
  assert (H1 : 0 < nth i l 0) by (apply Hp, nth_In; lia). assert (H2 : 0 < nth (S i) l 0) by (apply Hp, nth_In; lia).
  symmetry. apply sqrt_lem_1; [left; apply Rmult_lt_0_compat; assumption|left; apply pow10_pos|]. unfold pow10. rewrite <- Rpower_plus.
  replace (/ 2 * (log10 (nth i l 0) + log10 (nth (S i) l 0)) + / 2 * (log10 (nth i l 0) + log10 (nth (S i) l 0))) with (log10 (nth i l 0) + log10 (nth (S i) l 0)) by lra.
  rewrite Rpower_plus. change (pow10 (log10 (nth i l 0)) * pow10 (log10 (nth (S i) l 0)) = nth i l 0 * nth (S i) l 0). rewrite !pow10_log10 by assumption. reflexivity.
Qed.

(* ------------------------------------------------------------ centroids *)
(** Weighted sums over corners. *)
Fixpoint wsum (ws : list (R * R)) (c : list nat -> R) : R :=
  match ws with
  | [] => c []
  | (u, v) :: r => u * wsum r (fun bits => c (0%nat :: bits)) + v * wsum r (fun bits => c (1%nat :: bits))
  end.
Lemma wsum_lin ws u v c d : wsum ws (fun bits => u * c bits + v * d bits) = u * wsum ws c + v * wsum ws d.
Proof.
  revert c d. induction ws as [|[p q] ws IH]; intros c d; cbn [wsum]; [reflexivity|].
  rewrite (IH (fun bits => c (0%nat :: bits))), (IH (fun bits => c (1%nat :: bits))). ring.
Qed.
Lemma multilinear_lin box u v : forall c d x, multilinear box (fun bits => u * c bits + v * d bits) x = u * multilinear box c x + v * multilinear box d x.
Proof.
  induction box as [|[a b] box IH]; intros c d x; cbn [multilinear]; [reflexivity|]. destruct x as [|t x]; [reflexivity|].
  rewrite (IH (fun bits => c (0%nat :: bits)) (fun bits => d (0%nat :: bits))), (IH (fun bits => c (1%nat :: bits)) (fun bits => d (1%nat :: bits))). unfold Rdiv. ring.
Qed.
Lemma is_RInt_aff a b u v : a < b -> is_RInt (fun t => (b - t) / (b - a) * u + (t - a) / (b - a) * v) a b ((b - a) / 2 * u + (b - a) / 2 * v).
Proof.
  intros H. set (F := fun t : R => (t - a) * (t - a) / 2 / (b - a) * v - (b - t) * (b - t) / 2 / (b - a) * u).
  replace ((b - a) / 2 * u + (b - a) / 2 * v) with (F b - F a) by (unfold F; field; lra).
  apply (is_RInt_derive F).
  - intros t _. unfold F. auto_derive; [exact I|]. field. lra.
  - intros t _. apply (ex_derive_continuous (fun t => (b - t) / (b - a) * u + (t - a) / (b - a) * v)). auto_derive. exact I.
Qed.
Lemma is_RInt_mom a b u v : a < b -> is_RInt (fun t => (b - t) / (b - a) * (t * u) + (t - a) / (b - a) * (t * v)) a b
  ((b - a) * (2 * a + b) / 6 * u + (b - a) * (a + 2 * b) / 6 * v).
Proof.
  intros H. set (F := fun t : R => (b * t * t / 2 - t * t * t / 3) / (b - a) * u + (t * t * t / 3 - a * t * t / 2) / (b - a) * v).
  replace ((b - a) * (2 * a + b) / 6 * u + (b - a) * (a + 2 * b) / 6 * v) with (F b - F a) by (unfold F; field; lra).
  apply (is_RInt_derive F).
  - intros t _. unfold F. auto_derive; [exact I|]. field. lra.
  - intros t _. apply (ex_derive_continuous (fun t => (b - t) / (b - a) * (t * u) + (t - a) / (b - a) * (t * v))). auto_derive. exact I.
Qed.
Definition mom0 (ab : R * R) : R * R := ((snd ab - fst ab) / 2, (snd ab - fst ab) / 2).
Definition mom1 (ab : R * R) : R * R := ((snd ab - fst ab) * (2 * fst ab + snd ab) / 6, (snd ab - fst ab) * (fst ab + 2 * snd ab) / 6).
Lemma is_box_integral_ext box f g v : (forall x, length x = length box -> f x = g x) -> is_box_integral box f v -> is_box_integral box g v.
Proof.
  revert f g v. induction box as [|[a b] box IH]; intros f g v H; cbn [is_box_integral]; [intros ->; apply H; reflexivity|].
  intros [h [Hh Hi]]. exists h. split; [|exact Hi]. intros t Ht. apply (IH (fun x => f (t :: x))); [|apply Hh, Ht]. intros x Hx. apply H. cbn. rewrite Hx. reflexivity.
Qed.
Lemma box_mass box : (forall ab, In ab box -> fst ab < snd ab) -> forall c, is_box_integral box (multilinear box c) (wsum (map mom0 box) c).
Proof.
  induction box as [|[a b] box IH]; intros H c; cbn [is_box_integral multilinear map wsum]; [reflexivity|].
  pose proof (H (a, b) (or_introl eq_refl)) as Hab. cbn in Hab.
  exists (fun t => (b - t) / (b - a) * wsum (map mom0 box) (fun bits => c (0%nat :: bits)) + (t - a) / (b - a) * wsum (map mom0 box) (fun bits => c (1%nat :: bits))). split.
  - intros t _. rewrite <- wsum_lin. eapply is_box_integral_ext; [|apply IH; intros ab Hin; apply H; right; exact Hin]. intros x _. cbv beta. rewrite multilinear_lin. unfold Rdiv. ring.
  - unfold mom0 at 3 5. cbn [fst snd]. apply is_RInt_aff, Hab.
Qed.
Lemma box_moment box : (forall ab, In ab box -> fst ab < snd ab) -> forall ii c, (ii < length box)%nat ->
  is_box_integral box (fun x => nth ii x 0 * multilinear box c x) (wsum (set_nth ii (mom1 (nth ii box (0, 0))) (map mom0 box)) c).
Proof.
  induction box as [|[a b] box IH]; intros H ii c Hii; [cbn in Hii; lia|]. cbn [is_box_integral multilinear map].
  pose proof (H (a, b) (or_introl eq_refl)) as Hab. cbn in Hab. assert (Ht : forall ab, In ab box -> fst ab < snd ab) by (intros ab Hin; apply H; right; exact Hin).
  destruct ii as [|ii]; cbn [nth set_nth wsum].
  - exists (fun t => (b - t) / (b - a) * (t * wsum (map mom0 box) (fun bits => c (0%nat :: bits))) + (t - a) / (b - a) * (t * wsum (map mom0 box) (fun bits => c (1%nat :: bits)))). split.
    + intros t _. replace ((b - t) / (b - a) * (t * wsum (map mom0 box) (fun bits => c (0%nat :: bits))) + (t - a) / (b - a) * (t * wsum (map mom0 box) (fun bits => c (1%nat :: bits))))
        with ((t * ((b - t) / (b - a))) * wsum (map mom0 box) (fun bits => c (0%nat :: bits)) + (t * ((t - a) / (b - a))) * wsum (map mom0 box) (fun bits => c (1%nat :: bits))) by ring.
      rewrite <- wsum_lin. eapply is_box_integral_ext; [|apply box_mass, Ht]. intros x _. cbv beta. rewrite multilinear_lin. unfold Rdiv. ring.
    + unfold mom1. cbn [fst snd]. apply is_RInt_mom, Hab.
  - cbn in Hii. set (ws := set_nth ii (mom1 (nth ii box (0, 0))) (map mom0 box)).
    exists (fun t => (b - t) / (b - a) * wsum ws (fun bits => c (0%nat :: bits)) + (t - a) / (b - a) * wsum ws (fun bits => c (1%nat :: bits))). split.
    + intros t _. rewrite <- wsum_lin. eapply is_box_integral_ext; [|apply IH; [exact Ht|lia]]. intros x _. cbv beta. rewrite multilinear_lin. unfold Rdiv. ring.
    + exact (is_RInt_aff a b _ _ Hab).
Qed.

(** Corner sums per side. *)
Definition side_sum (D ii s : nat) (c : list nat -> R) : R := asum (set_nth ii 1%nat (repeat 2%nat D)) (fun bits => c (set_nth ii s bits)).
Fixpoint prod_but (ii : nat) (hs : list R) : R :=
  match hs, ii with
  | [], _ => 1
  | h :: r, O => fold_right Rmult 1 r
  | h :: r, S k => h * prod_but k r
  end.
Lemma wsum_const hs : forall c, wsum (map (fun h => (h, h)) hs) c = fold_right Rmult 1 hs * asum (repeat 2%nat (length hs)) c.
Proof.
  induction hs as [|h hs IH]; intros c; cbn [map wsum fold_right length repeat asum rsum]; [ring|]. rewrite !IH. ring.
Qed.
Lemma wsum_sides hs : forall ii p q c, (ii < length hs)%nat ->
  wsum (set_nth ii (p, q) (map (fun h => (h, h)) hs)) c = prod_but ii hs * (p * side_sum (length hs) ii 0 c + q * side_sum (length hs) ii 1 c).
Proof.
  unfold side_sum. induction hs as [|h hs IH]; intros [|ii] p q c H; cbn [length] in H; try lia; cbn [map set_nth wsum prod_but length repeat asum rsum].
  - rewrite !wsum_const. ring.
  - rewrite !IH by lia. ring.
Qed.
Lemma prod_but_ne ii hs : (forall h, In h hs -> h <> 0) -> prod_but ii hs <> 0.
Proof.
  revert ii. induction hs as [|h hs IH]; intros [|ii] H; cbn [prod_but]; try lra.
  - assert (H' : forall h', In h' hs -> h' <> 0) by (intros h' Hh; apply H; right; exact Hh). clear - H'. induction hs as [|k hs IH]; cbn [fold_right]; [lra|].
    apply Rmult_integral_contrapositive. split; [apply H'; left; reflexivity|]. apply IH. intros h' Hh. apply H'. right. exact Hh.
  - apply Rmult_integral_contrapositive. split; [apply H; left; reflexivity|]. apply IH. intros h' Hh. apply H. right. exact Hh.
Qed.
Lemma centroid_1d_closed a b y1 y2 : a < b -> y1 + y2 <> 0 -> centroid_1d a b y1 y2 = ((2 * a + b) * y1 + (a + 2 * b) * y2) / (3 * (y1 + y2)).
Proof.
  intros Hab Hy. unfold centroid_1d. cbv zeta. destruct (Rltb y2 y1) eqn:E.
  - apply Rltb_true in E. rewrite (Rmin_right y1 y2), (Rmax_left y1 y2) by lra. destruct (Reqb_spec ((b - a) * y2 + / 2 * (b - a) * (y1 - y2)) 0) as [Z|Z].
    + exfalso. assert (Hz : (b - a) * (y1 + y2) = 0) by lra. apply Rmult_integral in Hz. destruct Hz; [lra|contradiction].
    + field. split; [exact Hy|]. lra.
  - apply Rltb_false in E. rewrite (Rmin_left y1 y2), (Rmax_right y1 y2) by lra. destruct (Reqb_spec ((b - a) * y1 + / 2 * (b - a) * (y2 - y1)) 0) as [Z|Z].
    + exfalso. assert (Hz : (b - a) * (y1 + y2) = 0) by lra. apply Rmult_integral in Hz. destruct Hz; [lra|contradiction].
    + field. split; [exact Hy|]. lra.
Qed.
Lemma bin_box_length edges idx : inb (masses edges) idx -> length (bin_box edges idx) = length edges.
Proof. unfold masses. revert idx. induction edges as [|x es IH]; intros idx H; cbn in H; inversion H; subst; [reflexivity|]. cbn. f_equal. apply IH. assumption. Qed.
Lemma bin_box_nth edges idx ii : inb (masses edges) idx -> (ii < length edges)%nat ->
  nth ii (bin_box edges idx) (0, 0) = (nth (nth ii idx 0%nat) (nth ii edges []) 0, nth (S (nth ii idx 0%nat)) (nth ii edges []) 0).
Proof.
  unfold masses. revert idx ii. induction edges as [|x es IH]; intros idx ii H Hi; cbn in Hi; [lia|]. cbn in H. inversion H; subst. cbn [bin_box nth]. destruct ii as [|ii]; [reflexivity|].
  apply IH; [assumption|lia].
Qed.
Lemma bin_box_incr edges idx : (forall x, In x edges -> incr_list x) -> inb (masses edges) idx -> forall ab, In ab (bin_box edges idx) -> fst ab < snd ab.
Proof.
  unfold masses. revert idx. induction edges as [|x es IH]; intros idx He H ab Hin; cbn in H; inversion H; subst; [destruct Hin|]. cbn [bin_box] in Hin. destruct Hin as [<-|Hin].
  - cbn. apply (He x (or_introl eq_refl)); lia.
  - eapply IH; [|eassumption|exact Hin]. intros y Hy. apply He. right. exact Hy.
Qed.
Lemma corner_add idx bits : length idx = length bits -> corner idx bits = add_idx idx bits.
Proof. revert bits. induction idx as [|i idx IH]; intros [|b bits] H; cbn in *; try discriminate H; try reflexivity. f_equal. apply IH. lia. Qed.

(** C43 *)
  Lemma centroid_setting edges data ii idx : shp data = lens edges -> (forall x, In x edges -> incr_list x) -> (ii < length edges)%nat -> inb (masses edges) idx ->
    let a := nth (nth ii idx 0%nat) (nth ii edges []) 0 in let b := nth (S (nth ii idx 0%nat)) (nth ii edges []) 0 in
    let c := fun bits => at_ data (corner idx bits) in
    a < b /\ at_ (centroids edges data ii) idx = centroid_1d a b (side_sum (length edges) ii 0 c) (side_sum (length edges) ii 1 c)
    /\ exists K, K <> 0 /\ is_box_integral (bin_box edges idx) (multilinear (bin_box edges idx) c) (K * ((b - a) / 2 * (side_sum (length edges) ii 0 c + side_sum (length edges) ii 1 c)))
       /\ is_box_integral (bin_box edges idx) (fun x => nth ii x 0 * multilinear (bin_box edges idx) c x)
            (K * ((b - a) * (2 * a + b) / 6 * side_sum (length edges) ii 0 c + (b - a) * (a + 2 * b) / 6 * side_sum (length edges) ii 1 c)).
  Proof.
    intros H He Hii Hi. cbv zeta. pose proof (bin_box_incr edges idx He Hi) as Hb. pose proof (bin_box_length edges idx Hi) as Hl.
    pose proof (bin_box_nth edges idx ii Hi Hii) as Hn. set (box := bin_box edges idx) in *.
    assert (Hlt : (ii < length box)%nat) by lia. assert (Hab := Hb (nth ii box (0, 0)) (nth_In box (0, 0) Hlt)). rewrite Hn in Hab. cbn [fst snd] in Hab.
    set (a := nth (nth ii idx 0%nat) (nth ii edges []) 0) in *. set (b := nth (S (nth ii idx 0%nat)) (nth ii edges []) 0) in *. set (c := fun bits => at_ data (corner idx bits)).
    split; [exact Hab|]. split.
    - assert (Hli : length idx = length edges) by (apply inb_length in Hi; unfold masses in Hi; rewrite map_length in Hi; exact Hi).
      assert (Hcs : forall s, corner_sum data ii s idx = side_sum (length edges) ii s c).
      { intros s. unfold corner_sum, side_sum. rewrite H, lens_length. apply asum_ext. intros bits Hbits. unfold c. rewrite corner_add; [reflexivity|].
        apply inb_length in Hbits. rewrite set_nth_length, repeat_length in Hbits. rewrite set_nth_length. congruence. }
      unfold centroids. cbn [at_]. rewrite !Hcs. reflexivity.
    - set (hs := map (fun ab : R * R => (snd ab - fst ab) / 2) box). assert (Hm : map mom0 box = map (fun h => (h, h)) hs) by (unfold hs; rewrite map_map; reflexivity).
      assert (Hhl : length hs = length edges) by (unfold hs; rewrite map_length; exact Hl).
      exists (prod_but ii hs). split; [|split].
      + apply prod_but_ne. intros h Hh. unfold hs in Hh. apply in_map_iff in Hh. destruct Hh as [ab [<- Hin]]. specialize (Hb ab Hin). lra.
      + pose proof (box_mass box Hb c) as HM. replace (map mom0 box) with (set_nth ii ((b - a) / 2, (b - a) / 2) (map (fun h => (h, h)) hs)) in HM.
        * rewrite wsum_sides, Hhl in HM by lia. rewrite Rmult_plus_distr_l. exact HM.
        * rewrite <- Hm. replace ((b - a) / 2, (b - a) / 2) with (nth ii (map mom0 box) (mom0 (0, 0))); [apply set_nth_id|]. rewrite map_nth, Hn. reflexivity.
      + pose proof (box_moment box Hb ii c ltac:(lia)) as HM. rewrite Hm, Hn in HM. unfold mom1 in HM. cbn [fst snd] in HM. rewrite wsum_sides, Hhl in HM by lia. exact HM.
  Qed.

Theorem centroid_is_center_of_mass edges data ii idx : shp data = map (@List.length R) edges -> (forall x, In x edges -> incr_list x) -> (ii < length edges)%nat -> inb (map (fun x => List.length x - 1)%nat edges) idx ->
  (forall j, inb (shp data) j -> 0 <= at_ data j) ->
  let box := bin_box edges idx in let c := fun bits => at_ data (corner idx bits) in
  exists mass moment, is_box_integral box (multilinear box c) mass /\ is_box_integral box (fun x => nth ii x 0 * multilinear box c x) moment
  /\ (0 < mass -> at_ (centroids edges data ii) idx = moment / mass).
Proof.
  intros H He Hii Hi Hp. cbv zeta. destruct (centroid_setting edges data ii idx H He Hii Hi) as [Hab [Hc [K [HK [H0 H1]]]]].
  eexists. eexists. split; [exact H0|]. split; [exact H1|]. intros Hm. rewrite Hc.
  set (y1 := side_sum (length edges) ii 0 _) in *. set (y2 := side_sum (length edges) ii 1 _) in *.
  set (a := nth (nth ii idx 0%nat) (nth ii edges []) 0) in *. set (b := nth (S (nth ii idx 0%nat)) (nth ii edges []) 0) in *.
  assert (Hy : y1 + y2 <> 0) by (intros Z; rewrite Z in Hm; lra). rewrite centroid_1d_closed by assumption. field. repeat split; try lra; assumption.
Qed.
Lemma side_nonneg edges data ii s idx : shp data = lens edges -> (s < 2)%nat -> inb (masses edges) idx -> (forall j, inb (shp data) j -> 0 <= at_ data j) ->
  0 <= side_sum (length edges) ii s (fun bits => at_ data (corner idx bits)).
Proof.
  intros H Hs Hi Hp. unfold side_sum. apply asum_nonneg. intros bits Hb. pose proof (inb_length _ _ Hb) as Hl. rewrite set_nth_length, repeat_length in Hl.
  pose proof (inb_length _ _ Hi) as Hli. unfold masses in Hli. rewrite map_length in Hli.
  rewrite corner_add by (rewrite set_nth_length; congruence). apply Hp. rewrite H. apply inb_add_bits; [rewrite <- masses_lens; exact Hi|]. rewrite lens_length.
  clear - Hb Hs. revert ii bits Hb. induction (length edges) as [|n IH]; intros ii bits Hb; cbn [repeat] in *.
  - destruct ii; inversion Hb; subst; constructor.
  - destruct ii as [|ii]; cbn [set_nth] in Hb; inversion Hb; subst; cbn [set_nth]; constructor; try assumption. apply IH. assumption.
Qed.
Theorem centroid_inside edges data ii idx : shp data = map (@List.length R) edges -> (forall x, In x edges -> incr_list x) -> (ii < length edges)%nat -> inb (map (fun x => List.length x - 1)%nat edges) idx ->
  (forall j, inb (shp data) j -> 0 <= at_ data j) ->
  nth (nth ii idx 0%nat) (nth ii edges []) 0 < at_ (centroids edges data ii) idx < nth (S (nth ii idx 0%nat)) (nth ii edges []) 0.
Proof.
  intros H He Hii Hi Hp. destruct (centroid_setting edges data ii idx H He Hii Hi) as [Hab [Hc _]]. rewrite Hc.
  pose proof (side_nonneg edges data ii 0 idx H ltac:(lia) Hi Hp) as P1. pose proof (side_nonneg edges data ii 1 idx H ltac:(lia) Hi Hp) as P2.
  set (y1 := side_sum (length edges) ii 0 _) in *. set (y2 := side_sum (length edges) ii 1 _) in *.
  set (a := nth (nth ii idx 0%nat) (nth ii edges []) 0) in *. set (b := nth (S (nth ii idx 0%nat)) (nth ii edges []) 0) in *.
  destruct (Req_dec (y1 + y2) 0) as [Z|Z].
  - replace y1 with 0 by lra. replace y2 with 0 by lra. unfold centroid_1d. cbv zeta. replace (Rltb 0 0) with false by (symmetry; destruct (Rltb_spec 0 0); [lra|reflexivity]).
    rewrite Rmin_left, Rmax_left by lra. replace (Reqb ((b - a) * 0 + / 2 * (b - a) * (0 - 0)) 0) with true by (symmetry; destruct (Reqb_spec ((b - a) * 0 + / 2 * (b - a) * (0 - 0)) 0) as [|N]; [reflexivity|exfalso; apply N; ring]). lra.
  - rewrite centroid_1d_closed by assumption. assert (Hs : 0 < y1 + y2) by lra. split.
    + apply (Rmult_lt_reg_r (3 * (y1 + y2))); [lra|]. replace (((2 * a + b) * y1 + (a + 2 * b) * y2) / (3 * (y1 + y2)) * (3 * (y1 + y2))) with ((2 * a + b) * y1 + (a + 2 * b) * y2) by (field; exact Z).
      assert (0 < (b - a) * (y1 + 2 * y2)) by (apply Rmult_lt_0_compat; lra). lra.
    + apply (Rmult_lt_reg_r (3 * (y1 + y2))); [lra|]. replace (((2 * a + b) * y1 + (a + 2 * b) * y2) / (3 * (y1 + y2)) * (3 * (y1 + y2))) with ((2 * a + b) * y1 + (a + 2 * b) * y2) by (field; exact Z).
      assert (0 < (b - a) * (2 * y1 + y2)) by (apply Rmult_lt_0_compat; lra). lra.
Qed.
Theorem centroid_empty_bin edges data ii idx : shp data = map (@List.length R) edges -> (forall x, In x edges -> incr_list x) -> (ii < length edges)%nat -> inb (map (fun x => List.length x - 1)%nat edges) idx ->
  (forall bits, inb (repeat 2%nat (length edges)) bits -> at_ data (corner idx bits) = 0) ->
  let a := nth (nth ii idx 0%nat) (nth ii edges []) 0 in let b := nth (S (nth ii idx 0%nat)) (nth ii edges []) 0 in
  at_ (centroids edges data ii) idx = a + 7 / 12 * (b - a).
Proof.
  intros H He Hii Hi Hp. cbv zeta. destruct (centroid_setting edges data ii idx H He Hii Hi) as [Hab [Hc _]]. rewrite Hc.
  assert (Hz : forall s, (s < 2)%nat -> side_sum (length edges) ii s (fun bits => at_ data (corner idx bits)) = 0).
  { intros s Hs. unfold side_sum. apply asum_zero. intros bits Hb. apply Hp. clear - Hb Hs. revert ii bits Hb. induction (length edges) as [|n IH]; intros ii bits Hb; cbn [repeat] in *.
    - destruct ii; inversion Hb; subst; constructor.
    - destruct ii as [|ii]; cbn [set_nth] in Hb; inversion Hb; subst; cbn [set_nth]; constructor; try assumption. apply IH. assumption. }
  rewrite !Hz by lia. set (a := nth (nth ii idx 0%nat) (nth ii edges []) 0) in *. set (b := nth (S (nth ii idx 0%nat)) (nth ii edges []) 0) in *.
  unfold centroid_1d. cbv zeta. replace (Rltb 0 0) with false by (symmetry; destruct (Rltb_spec 0 0); [lra|reflexivity]).
  rewrite Rmin_left, Rmax_left by lra. replace (Reqb ((b - a) * 0 + / 2 * (b - a) * (0 - 0)) 0) with true by (symmetry; destruct (Reqb_spec ((b - a) * 0 + / 2 * (b - a) * (0 - 0)) 0) as [|N]; [reflexivity|exfalso; apply N; ring]). lra.
Qed.
(** C41: the mass of a bin is the integral of the multilinear density over it. *)
Theorem mass_is_integral pdf edges : shp pdf = map (@List.length R) edges -> (forall x, In x edges -> x <> [] /\ incr_list x) ->
  exists m, trapz_dens_to_mass pdf edges None = Ok m
  /\ forall idx, inb (shp m) idx -> is_box_integral (bin_box edges idx) (multilinear (bin_box edges idx) (fun bits => at_ pdf (corner idx bits))) (at_ m idx).
Proof.
  intros H He. destruct (mass_run pdf edges H (fun x Hx => proj1 (He x Hx))) as [m [Hm [Hs Hv]]]. exists m. split; [exact Hm|]. intros idx Hi. rewrite Hs in Hi. rewrite Hv by exact Hi.
  pose proof (bin_box_incr edges idx (fun x Hx => proj2 (He x Hx)) Hi) as Hb. pose proof (bin_box_length edges idx Hi) as Hl.
  pose proof (box_mass (bin_box edges idx) Hb (fun bits => at_ pdf (corner idx bits))) as HM.
  set (hs := map (fun ab : R * R => (snd ab - fst ab) / 2) (bin_box edges idx)). assert (Hmm : map mom0 (bin_box edges idx) = map (fun h => (h, h)) hs) by (unfold hs; rewrite map_map; reflexivity).
  rewrite Hmm, wsum_const in HM. assert (Hhl : length hs = length edges) by (unfold hs; rewrite map_length; exact Hl). rewrite Hhl in HM.
  assert (Hli : length idx = length edges) by (apply inb_length in Hi; unfold masses in Hi; rewrite map_length in Hi; exact Hi).
  assert (Hp : fold_right Rmult 1 hs = vol edges idx / INR (2 ^ length edges)).
  { unfold hs. clear - Hi. unfold masses in Hi. revert idx Hi. induction edges as [|x es IH]; intros idx Hi; cbn [map] in Hi; inversion Hi as [|i ? idx' ? Hil Hi']; subst; [cbn; lra|].
    cbn [bin_box map fold_right vol length]. rewrite IH by exact Hi'. cbn [fst snd]. replace (2 ^ S (length es))%nat with (2 * 2 ^ length es)%nat by reflexivity. rewrite mult_INR. cbn [INR]. field. apply not_0_INR. apply Nat.pow_nonzero. lia. }
  rewrite Hp in HM. unfold avg_corners.
  replace (asum (repeat 2%nat (length edges)) (fun bits => at_ pdf (add_idx idx bits)) * vol edges idx / INR (2 ^ length edges)) with (vol edges idx / INR (2 ^ length edges) * asum (repeat 2%nat (length edges)) (fun bits => at_ pdf (corner idx bits))); [exact HM|].
  rewrite (asum_ext _ (fun bits => at_ pdf (corner idx bits)) (fun bits => at_ pdf (add_idx idx bits))); [unfold Rdiv; ring|].
  intros bits Hbits. rewrite corner_add; [reflexivity|]. apply inb_length in Hbits. rewrite repeat_length in Hbits. congruence.
Qed.
(** C46: along one axis of an array. *)
Theorem midpoints_axis a k : (k < length (shp a))%nat -> (2 <= nth k (shp a) 0)%nat ->
  exists r, midpoints a (Some [Z.of_nat k]) = Ok r /\ midpoints a (Some [(Z.of_nat k - Z.of_nat (length (shp a)))%Z]) = Ok r
  /\ shp r = set_nth k (nth k (shp a) 0%nat - 1)%nat (shp a)
  /\ forall idx, at_ r idx = (at_ a idx + at_ a (set_nth k (S (nth k idx 0%nat)) idx)) / 2.
Proof.
  intros Hk H2. unfold midpoints. cbn [midpoints_loop]. unfold midpoints_1d.
  assert (E1 : norm_axis (length (shp a)) (Z.of_nat k) = Some k).
  { unfold norm_axis. destruct (Z.leb_spec 0 (Z.of_nat k)), (Z.ltb_spec (Z.of_nat k) (Z.of_nat (length (shp a)))); cbn [andb]; try lia. rewrite Nat2Z.id. reflexivity. }
  assert (E2 : norm_axis (length (shp a)) (Z.of_nat k - Z.of_nat (length (shp a)))%Z = Some k).
  { unfold norm_axis. set (z := (Z.of_nat k - Z.of_nat (length (shp a)))%Z). destruct (Z.leb_spec 0 z); [unfold z in *; lia|]. cbn [andb]. destruct (Z.leb_spec (- Z.of_nat (length (shp a))) z), (Z.ltb_spec z 0); cbn [andb]; try (unfold z in *; lia). f_equal. unfold z. lia. }
  rewrite E1, E2. destruct (Nat.ltb_spec (nth k (shp a) 0%nat) 2); [lia|]. cbn [bind]. eexists. split; [reflexivity|]. split; [reflexivity|]. split; [reflexivity|]. intros idx. cbn [at_]. lra.
Qed.

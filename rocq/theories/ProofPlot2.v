(** Proofs about contour levels, standard deviations and the fractions belonging to them. *)
From Coq Require Import Permutation ZArith.
From Verif Require Import Base ModelLinAlg ModelKernels ModelKDE ModelInterp ModelResample ModelUtils ModelNd ModelGrid ModelSample
  SpecUtils SpecNd ModelPlot SpecPlot ProofInterp ProofUtils ProofUtils2 ProofNd ProofSample ProofPlot.
Open Scope R_scope.
Notation length := List.length.

(* ------------------------------------------------------------ fractions and standard deviations *)
Theorem sigma_round s : 0 <= s -> sigma_of_quantile (quantile_of_sigma s) = Fin s.
Proof.
  intros Hs. unfold sigma_of_quantile, quantile_of_sigma. pose proof (exp_pos (- (1 / 2) * (s * s))).
  assert (exp (- (1 / 2) * (s * s)) <= 1).
  { apply Rle_trans with (exp 0); [|rewrite exp_0; lra]. destruct (Req_dec s 0) as [->|Ns]; [right; f_equal; ring|]. left. apply exp_increasing. assert (0 < s) by (apply Rnot_le_lt; intros Q; apply Ns; lra). assert (0 < s * s) by (apply Rmult_lt_0_compat; lra). lra. }
  rewrite (proj2 (Rltb_true _ _)) by lra. rewrite (proj2 (Rleb_true _ _)) by lra.
  replace (1 - (1 - exp (- (1 / 2) * (s * s)))) with (exp (- (1 / 2) * (s * s))) by ring. rewrite ln_exp.
  replace (-2 * (- (1 / 2) * (s * s))) with (s * s) by field. rewrite sqrt_square by exact Hs. reflexivity.
Qed.
Theorem quantile_round q : 0 <= q < 1 -> exists s, sigma_of_quantile q = Fin s /\ 0 <= s /\ quantile_of_sigma s = q.
Proof.
  intros Hq. unfold sigma_of_quantile. rewrite (proj2 (Rltb_true _ _)) by lra. rewrite (proj2 (Rleb_true _ _)) by lra.
  eexists. split; [reflexivity|]. split; [apply sqrt_pos|]. unfold quantile_of_sigma.
  assert (HL : 0 <= -2 * ln (1 - q)).
  { destruct (Req_dec q 0) as [->|Nq]; [rewrite Rminus_0_r, ln_1; lra|]. assert (0 < q) by (apply Rnot_le_lt; intros Q; apply Nq; lra). assert (ln (1 - q) < ln 1) by (apply ln_increasing; lra). rewrite ln_1 in H0. lra. }
  rewrite sqrt_sqrt by exact HL. replace (- (1 / 2) * (-2 * ln (1 - q))) with (ln (1 - q)) by field. rewrite exp_ln by lra. ring.
Qed.
Theorem quantile_increasing s s' : 0 <= s -> s < s' -> 0 <= quantile_of_sigma s < quantile_of_sigma s' /\ quantile_of_sigma s' < 1.
Proof.
  intros H0 H. unfold quantile_of_sigma. assert (s * s < s' * s') by (apply Rmult_le_0_lt_compat; lra).
  assert (exp (- (1 / 2) * (s' * s')) < exp (- (1 / 2) * (s * s))) by (apply exp_increasing; lra).
  assert (exp (- (1 / 2) * (s * s)) <= 1).
  { apply Rle_trans with (exp 0); [|rewrite exp_0; lra]. destruct (Req_dec s 0) as [->|Ns]; [right; f_equal; ring|]. left. apply exp_increasing. assert (0 < s) by (apply Rnot_le_lt; intros Q; apply Ns; lra). assert (0 < s * s) by (apply Rmult_lt_0_compat; lra). lra. }
  pose proof (exp_pos (- (1 / 2) * (s' * s'))). lra.
Qed.
Theorem sigma_outside q : (q = 1 -> sigma_of_quantile q = PInf) /\ (q < 0 \/ 1 < q -> sigma_of_quantile q = NaN).
Proof.
  unfold sigma_of_quantile. split; intros H; destruct (Rltb_spec q 1), (Rleb_spec 0 q), (Reqb_spec q 1); try reflexivity; exfalso; lra.
Qed.
Theorem default_quantiles_cases :
  (forall s, default_quantiles None (Some s) = (map quantile_of_sigma s, map Fin s))
  /\ (forall q, default_quantiles (Some q) None = (q, map sigma_of_quantile q))
  /\ (forall q s, default_quantiles (Some q) (Some s) = (q, map Fin s))
  /\ default_quantiles None None = default_quantiles None (Some [1 / 2; 1; 3 / 2; 2]).
Proof. repeat split. Qed.
(** Given as standard deviations, or as the fractions belonging to them: the same. *)
Theorem default_quantiles_round s : (forall x, In x s -> 0 <= x) ->
  default_quantiles (Some (fst (default_quantiles None (Some s)))) None = default_quantiles None (Some s).
Proof.
  intros H. cbn. f_equal. rewrite map_map. apply map_ext_in. intros x Hx. apply sigma_round, H, Hx.
Qed.

(* ------------------------------------------------------------ contour levels *)
Lemma filter_prefix {A} (P : A -> bool) (L : list A) (d : A) :
  (forall i j, (i < j < length L)%nat -> P (nth j L d) = true -> P (nth i L d) = true) ->
  exists k, (k <= length L)%nat /\ filter P L = firstn k L /\ (forall i, (i < k)%nat -> P (nth i L d) = true)
  /\ (forall i, (k <= i < length L)%nat -> P (nth i L d) = false).
Proof.
  induction L as [|a L IH]; intros H; [exists O; repeat split; intros; cbn in *; lia|].
  destruct IH as (k & Hk & F & A1 & A2). { intros i j Hij. apply (H (S i) (S j)). cbn. lia. }
  destruct (P a) eqn:E.
  - exists (S k). cbn [length firstn filter]. rewrite E, F. split; [lia|]. split; [reflexivity|]. split; intros [|i] Hi; try lia; [exact E|apply A1; lia|apply A2; lia].
  - assert (N : forall i, (i < length (a :: L))%nat -> P (nth i (a :: L) d) = false).
    { intros [|i] Hi; [exact E|]. destruct (P (nth (S i) (a :: L) d)) eqn:E2; [|reflexivity]. pose proof (H O (S i) ltac:(cbn in *; lia) E2) as Q. cbn [nth] in Q. congruence. }
    exists O. split; [lia|]. split.
    + assert (k = O). { destruct k as [|k]; [reflexivity|]. exfalso. pose proof (A1 O ltac:(lia)) as Q. pose proof (N 1%nat ltac:(cbn; lia)) as Q2. cbn [nth] in Q2. congruence. }
      subst k. cbn [filter firstn]. rewrite E, F. reflexivity.
    + split; [intros; lia|]. intros i Hi. apply N. lia.
Qed.
Lemma rev_firstn_head {A} k (L : list A) (d : A) : (0 < k <= length L)%nat -> exists r, rev (firstn k L) = nth (k - 1) L d :: r.
Proof.
  intros H. destruct k as [|k]; [lia|]. rewrite <- (firstn_skipn k (firstn (S k) L)), rev_app_distr. rewrite firstn_firstn. replace (Nat.min k (S k)) with k by lia.
  assert (E : skipn k (firstn (S k) L) = [nth k L d]).
  { clear -H. revert L H. induction k as [|k IH]; intros [|a L] H; cbn in H; try lia; [reflexivity|]. cbn [firstn skipn nth]. apply (IH L). cbn. lia. }
  rewrite E. replace (S k - 1)%nat with k by lia. cbn. eexists. reflexivity.
Qed.
Lemma chain_unique l : forall l', chain l -> chain l' -> Permutation l l' -> l = l'.
Proof.
  assert (HM : forall a l, chain (a :: l) -> forall x, In x (a :: l) -> a <= x).
  { intros a m H x Hx. pose proof (chain_nondecr _ H) as N. destruct (In_nth _ _ 0 Hx) as (i & Hi & <-). apply (N O i); [lia|exact Hi]. }
  induction l as [|a l IH]; intros l' H H' P; [apply Permutation_nil in P; subst; reflexivity|].
  destruct l' as [|b l']; [apply Permutation_sym, Permutation_nil in P; discriminate|].
  assert (a = b).
  { pose proof (HM _ _ H b (Permutation_in _ (Permutation_sym P) (or_introl eq_refl))). pose proof (HM _ _ H' a (Permutation_in _ P (or_introl eq_refl))). lra. }
  subst b. f_equal. apply IH; [destruct l; [exact I|apply H]|destruct l'; [exact I|apply H']|eapply Permutation_cons_inv, P].
Qed.
Lemma nondecr_chain l : nondecr_list l -> chain l.
Proof.
  induction l as [|a [|b l] IH]; intros H; [exact I|exact I|]. split; [apply (H 0%nat 1%nat); cbn; lia|]. apply IH.
  intros i j Hij Hj. apply (H (S i) (S j)); cbn in *; lia.
Qed.

(** Lists in decreasing order. *)
Definition decr_list (d : list R) : Prop := forall i j, (i <= j)%nat -> (j < length d)%nat -> vget d j <= vget d i.
Definition labove (d : list R) (v : R) : R := sumf (fun x => if Rltb v x then x else 0) d.

Section Levels.
Context (d : list R).
Context (Hd : decr_list d).
Context (Hn : forall x, In x d -> 0 <= x).
Context (HS : 0 < lsum d).
Lemma d_nonneg i : 0 <= vget d i.
Proof. unfold vget. destruct (Nat.lt_ge_cases i (length d)) as [H|H]; [apply Hn, nth_In, H|]. rewrite nth_overflow by exact H. lra. Qed.
Lemma labove_le j : (j < length d)%nat -> labove d (vget d j) + vget d j <= rsum (S j) (vget d).
Proof.
  intros Hj. unfold labove. rewrite (sumf_rsum _ 0). rewrite (rsum_trunc j (length d)); [|lia|].
  2:{ intros i Hi. destruct (Rltb_spec (vget d j) (nth i d 0)) as [H|H]; [|reflexivity]. pose proof (Hd j i ltac:(lia) ltac:(lia)). unfold vget in *. lra. }
  cbn [rsum]. assert (rsum j (fun i => if Rltb (vget d j) (nth i d 0) then nth i d 0 else 0) <= rsum j (vget d)); [|lra].
  apply rsum_le. intros i Hi. pose proof (d_nonneg i). unfold vget in *. destruct (Rltb _ _); lra.
Qed.
Lemma labove_ge k u : (k <= length d)%nat -> (forall i, (i < k)%nat -> u < vget d i) -> rsum k (vget d) <= labove d u.
Proof.
  intros Hk H. unfold labove. rewrite (sumf_rsum _ 0). replace (length d) with (k + (length d - k))%nat by lia. rewrite rsum_app.
  assert (0 <= rsum (length d - k) (fun i => (fun i => if Rltb u (nth i d 0) then nth i d 0 else 0) (k + i)%nat)).
  { apply rsum_nonneg. intros i Hi. pose proof (d_nonneg (k + i)). unfold vget in *. destruct (Rltb _ _); lra. }
  cbv beta in H0. rewrite (rsum_ext k (fun i => if Rltb u (nth i d 0) then nth i d 0 else 0) (vget d)); [lra|].
  intros i Hi. pose proof (H i Hi) as Q. unfold vget in *. rewrite (proj2 (Rltb_true _ _) Q). reflexivity.
Qed.
Lemma level_spec q : let v := dfm_level d q in
  In v d /\ ((forall u, In u d -> u <= v) \/ labove d v + v <= q * lsum d) /\ (forall u, In u d -> u < v -> q * lsum d < labove d u + u).
Proof.
  intros v. assert (L : (0 < length d)%nat) by (destruct d; [cbn in HS; lra|cbn; lia]).
  set (P := fun p : R * R => frac_le (fst p) (lsum d) q).
  assert (HP : forall i, (i < length d)%nat -> (P (nth i (combine (cumsum1 d) d) (0, 0)) = true <-> rsum (S i) (vget d) <= q * lsum d)).
  { intros i Hi. unfold P. rewrite combine_nth by apply cumsum1_length. cbn [fst]. change (nth i (cumsum1 d) 0) with (vget (cumsum1 d) i). rewrite cumsum1_nth by exact Hi.
    unfold frac_le. destruct (Reqb_spec (lsum d) 0) as [Z|_]; [lra|]. rewrite Rleb_true. split; intros H.
    - apply (Rmult_le_compat_r (lsum d)) in H; [|lra]. unfold Rdiv in H. rewrite Rmult_assoc, Rinv_l in H by lra. lra.
    - apply (Rmult_le_reg_r (lsum d)); [exact HS|]. unfold Rdiv. rewrite Rmult_assoc, Rinv_l by lra. lra. }
  assert (LC : length (combine (cumsum1 d) d) = length d) by (rewrite combine_length, cumsum1_length; lia).
  assert (MS : forall i j, (i < j)%nat -> rsum (S i) (vget d) <= rsum (S j) (vget d)).
  { intros i j Hij. replace (S j) with (S i + (j - i))%nat by lia. rewrite rsum_app. assert (0 <= rsum (j - i) (fun k => vget d (S i + k))); [|lra].
    apply rsum_nonneg. intros. apply d_nonneg. }
  destruct (filter_prefix P (combine (cumsum1 d) d) (0, 0)) as (k & Hk & F & A & B).
  { intros i j Hij H. rewrite LC in Hij. apply HP in H; [|lia]. apply HP; [lia|]. pose proof (MS i j (proj1 Hij)). lra. }
  rewrite LC in Hk, B.
  assert (EV : v = vget d (k - 1)).
  { unfold v, dfm_level. cbv zeta. change (filter (fun p => frac_le (fst p) (lsum d) q) (combine (cumsum1 d) d)) with (filter P (combine (cumsum1 d) d)). rewrite F. destruct k as [|k].
    - reflexivity.
    - destruct (rev_firstn_head (S k) (combine (cumsum1 d) d) (0, 0)) as (r & E); [lia|]. rewrite E. rewrite combine_nth by apply cumsum1_length. reflexivity. }
  assert (Kd : (k - 1 < length d)%nat) by lia.
  split; [rewrite EV; apply nth_In, Kd|]. split.
  - destruct k as [|k].
    + left. intros u Hu. rewrite EV. destruct (In_nth _ _ 0 Hu) as (i & Hi & <-). apply (Hd 0%nat i); [lia|exact Hi].
    + right. rewrite EV. replace (S k - 1)%nat with k in * by lia. pose proof (labove_le k ltac:(lia)).
      pose proof (proj1 (HP k ltac:(lia)) (A k ltac:(lia))). lra.
  - intros u Hu Huv. destruct (In_nth _ _ 0 Hu) as (j & Hj & Ej). change (vget d j = u) in Ej.
    assert (Hjk : (k <= j)%nat). { destruct (Nat.lt_ge_cases j k) as [H|H]; [|exact H]. pose proof (Hd j (k - 1)%nat ltac:(lia) Kd). lra. }
    assert (Q : q * lsum d < rsum (S k) (vget d)).
    { destruct (Rlt_or_le (q * lsum d) (rsum (S k) (vget d))) as [H|H]; [exact H|]. apply HP in H; [|lia]. rewrite B in H by lia. discriminate. }
    assert (G : forall i, (i < k)%nat -> u < vget d i). { intros i Hi. pose proof (Hd i (k - 1)%nat ltac:(lia) Kd). lra. }
    destruct (Rlt_or_le u (vget d k)) as [H|H].
    + assert (rsum (S k) (vget d) <= labove d u). { apply labove_ge; [lia|]. intros i Hi. destruct (Nat.eq_dec i k) as [->|]; [exact H|apply G; lia]. }
      pose proof (Hn u Hu). lra.
    + pose proof (labove_ge k u Hk G). cbn [rsum] in Q. lra.
Qed.
End Levels.

Lemma decr_rev l : nondecr_list l -> decr_list (rev l).
Proof.
  intros H i j Hij Hj. rewrite rev_length in Hj. unfold vget. rewrite !rev_nth by lia. apply H; lia.
Qed.
Definition sorted_down (a : nda) : list R := rev (np_sort (flatten_nd a)).
Lemma sorted_down_perm a : Permutation (flatten_nd a) (sorted_down a).
Proof. eapply Permutation_trans; [apply sort_perm|apply Permutation_rev]. Qed.
Lemma entry_iff a v : entry a v <-> In v (sorted_down a).
Proof.
  split.
  - intros (idx & Hi & <-). eapply Permutation_in; [apply sorted_down_perm|]. apply in_map, inb_all_idx, Hi.
  - intros H. apply (Permutation_in _ (Permutation_sym (sorted_down_perm a))) in H. apply in_map_iff in H. destruct H as (idx & <- & H). exists idx. split; [apply inb_all_idx, H|reflexivity].
Qed.
Lemma above_eq a v : above a v = labove (sorted_down a) v.
Proof.
  unfold above, labove. rewrite <- (sumf_perm _ _ _ (sorted_down_perm a)). unfold flatten_nd. rewrite sumf_map, asum_list. reflexivity.
Qed.
Lemma total_eq a : total_of a = lsum (sorted_down a).
Proof. unfold total_of. rewrite asum_flat. apply lsum_perm, sorted_down_perm. Qed.
Lemma level_for_level a q : (forall v, entry a v -> 0 <= v) -> 0 < total_of a -> level_for a q (dfm_level (sorted_down a) q).
Proof.
  intros Hn HS. rewrite total_eq in HS.
  destruct (level_spec (sorted_down a) (decr_rev _ (proj2 (np_sort_spec _))) (fun x Hx => Hn x (proj2 (entry_iff a x) Hx)) HS q) as (A & B & C).
  split; [apply entry_iff, A|]. split.
  - destruct B as [B|B]; [left|right; rewrite above_eq, total_eq; exact B]. intros u Hu. apply B, entry_iff, Hu.
  - intros u Hu. rewrite above_eq, total_eq. apply C, entry_iff, Hu.
Qed.

(** There is only one level for each fraction. *)
Theorem level_unique a q v v' : level_for a q v -> level_for a q v' -> v = v'.
Proof.
  assert (H : forall v v', level_for a q v -> level_for a q v' -> ~ v < v').
  { intros x y (E & M & _) (E' & _ & S) HL. pose proof (S x E HL). destruct M as [M|M]; [pose proof (M y E'); lra|lra]. }
  intros A B. pose proof (H _ _ A B). pose proof (H _ _ B A). lra.
Qed.
(** A larger fraction has a level at most as high. *)
Theorem level_monotone a q q' v v' : 0 <= total_of a -> q <= q' -> level_for a q v -> level_for a q' v' -> v' <= v.
Proof.
  intros HT Hq (E & M & _) (E' & _ & S). destruct (Rle_or_lt v' v) as [H|H]; [exact H|]. pose proof (S v E H).
  assert (q * total_of a <= q' * total_of a) by (apply Rmult_le_compat_r; assumption). destruct M as [M|M]; [pose proof (M v' E'); lra|lra].
Qed.
(** What lies above the level is at most the fraction; what is lower encloses more. *)
Theorem level_encloses a q v : 0 <= q -> 0 <= total_of a -> (forall u, entry a u -> 0 <= u) -> level_for a q v ->
  above a v <= q * total_of a /\ forall u, entry a u -> u < v -> q * total_of a < above a u + u.
Proof.
  intros Hq HT Hn (E & M & S). split; [|exact S]. destruct M as [M|M]; [|pose proof (Hn v E); lra].
  unfold above. rewrite asum_list, sumf_zero; [apply Rmult_le_pos; assumption|]. intros idx Hi. apply inb_all_idx in Hi.
  rewrite (proj2 (Rltb_false _ _)); [reflexivity|]. apply M. exists idx. auto.
Qed.

(** The levels: one for each fraction, in increasing order. *)
Theorem dfm_levels_spec a quantiles sigmas : (forall v, entry a v -> 0 <= v) -> 0 < total_of a ->
  exists sg levels qs ls, dfm_levels a quantiles sigmas = Ok (sg, levels, qs) /\ (qs, sg) = default_quantiles quantiles sigmas
  /\ Forall2 (level_for a) qs ls /\ Permutation ls levels /\ nondecr_list levels.
Proof.
  intros Hn HS. unfold dfm_levels. cbv zeta. fold (sorted_down a). destruct (sorted_down a) as [|x d] eqn:E; [rewrite total_eq, E in HS; cbn in HS; lra|].
  rewrite <- E. eexists _, _, _, _. split; [reflexivity|]. split; [symmetry; apply surjective_pairing|]. split; [|split; [apply sort_perm|apply np_sort_spec]].
  induction (fst (default_quantiles quantiles sigmas)) as [|q qs IH]; cbn [map]; [constructor|]. constructor; [apply level_for_level; assumption|exact IH].
Qed.
(** So for increasing fractions the last level belongs to the first fraction. *)
Theorem dfm_levels_reversed a quantiles sigmas sg levels qs : (forall v, entry a v -> 0 <= v) -> 0 < total_of a ->
  dfm_levels a quantiles sigmas = Ok (sg, levels, qs) -> nondecr_list qs ->
  length levels = length qs /\ forall i, (i < length qs)%nat -> level_for a (nth (length qs - 1 - i) qs 0) (nth i levels 0).
Proof.
  intros Hn HS HD Hq. unfold dfm_levels in HD. cbv zeta in HD. fold (sorted_down a) in HD. destruct (sorted_down a) as [|x d] eqn:E; [discriminate HD|].
  rewrite <- E in HD. injection HD as <- <- <-. set (qs := fst (default_quantiles quantiles sigmas)) in *. set (g := dfm_level (sorted_down a)).
  assert (ER : np_sort (map g qs) = rev (map g qs)).
  { apply chain_unique; [apply chain_sort| |].
    - apply nondecr_chain. intros i j Hij Hj. rewrite rev_length, map_length in Hj. rewrite !rev_nth by (rewrite map_length; lia). rewrite map_length.
      set (n := length qs) in *. rewrite !(nth_indep (map g qs) 0 (g 0)) by (rewrite map_length; fold n; lia). rewrite !map_nth.
      eapply (level_monotone a); [lra| |apply level_for_level; assumption|apply level_for_level; assumption]. apply Hq; fold n; lia.
    - eapply Permutation_trans; [apply Permutation_sym, sort_perm|apply Permutation_rev]. }
  rewrite ER. split; [rewrite rev_length, map_length; reflexivity|]. intros i Hi. rewrite rev_nth by (rewrite map_length; exact Hi). rewrite map_length.
  rewrite (nth_indep (map g qs) 0 (g 0)) by (rewrite map_length; lia). rewrite map_nth. replace (length qs - S i)%nat with (length qs - 1 - i)%nat by lia. apply level_for_level; assumption.
Qed.
(** A histogram of zeros: every level is zero.  An empty one: IndexError. *)
Theorem dfm_levels_zero a quantiles sigmas sg levels qs : (forall v, entry a v -> v = 0) ->
  dfm_levels a quantiles sigmas = Ok (sg, levels, qs) -> length levels = length qs /\ forall v, In v levels -> v = 0.
Proof.
  intros Hz HD. unfold dfm_levels in HD. cbv zeta in HD. fold (sorted_down a) in HD. destruct (sorted_down a) as [|x d] eqn:E; [discriminate HD|].
  rewrite <- E in HD. injection HD as <- <- <-. split; [rewrite np_sort_length, map_length; reflexivity|]. intros v Hv.
  apply (Permutation_in _ (Permutation_sym (sort_perm _))) in Hv. apply in_map_iff in Hv. destruct Hv as (q & <- & _). apply Hz, entry_iff.
  unfold dfm_level. cbv zeta. rewrite E.
  match goal with |- In (match rev ?l with _ => _ end) _ => destruct (rev l) as [|p r] eqn:ER end; [left; reflexivity|].
  apply (in_combine_r (cumsum1 (x :: d)) (x :: d) (fst p) (snd p)). rewrite <- surjective_pairing.
  match type of ER with rev ?l = _ => assert (In p l) as HI by (apply in_rev; rewrite ER; left; reflexivity) end. apply filter_In in HI. apply HI.
Qed.
Theorem dfm_levels_empty a quantiles sigmas : dfm_levels a quantiles sigmas = Err IndexError <-> (forall v, ~ entry a v).
Proof.
  unfold dfm_levels. cbv zeta. fold (sorted_down a). split.
  - intros H v Hv. apply entry_iff in Hv. destruct (sorted_down a); [destruct Hv|discriminate H].
  - intros H. destruct (sorted_down a) as [|x d] eqn:E; [reflexivity|]. exfalso. apply (H x), entry_iff. rewrite E. left. reflexivity.
Qed.

(** Proofs about the warnings of the constructor. *)
From Coq Require Import Lra Lia String FunctionalExtensionality.
From Verif Require Import Base ModelLinAlg ModelKernels ModelKDE ModelUtils ModelWarn SpecUtils ProofUtils ProofUtils3.
Open Scope R_scope.
Notation length := List.length.

Lemma in_diagonal n M x : In x (diagonal_of n M) <-> exists i, (i < n)%nat /\ x = M i i.
Proof.
  unfold diagonal_of. rewrite in_map_iff. split.
  - intros [i [<- H]]. apply in_seq in H. exists i. split; [lia|reflexivity].
  - intros [i [H ->]]. exists i. split; [reflexivity|apply in_seq; lia].
Qed.
Lemma in_off n M x : In x (off_diagonal n M) <-> exists i j, (i < n)%nat /\ (j < n)%nat /\ i <> j /\ x = M i j.
Proof.
  unfold off_diagonal. rewrite in_app_iff, !in_flat_map. split.
  - intros [[i [Hi H]]|[i [Hi H]]]; apply in_seq in Hi; apply in_map_iff in H; destruct H as [j [<- Hj]]; apply in_seq in Hj; exists i, j; repeat split; lia.
  - intros [i [j [Hi [Hj [N ->]]]]]. destruct (Nat.lt_ge_cases i j) as [L|L]; [left|right]; exists i; (split; [apply in_seq; lia|]); apply in_map_iff; exists j;
      (split; [reflexivity|apply in_seq; lia]).
Qed.
Lemma in_logs l v : In v (log_sizes l) <-> exists x, In x l /\ x <> 0 /\ v = log10 (Rabs x).
Proof.
  unfold log_sizes. rewrite in_map_iff. split.
  - intros [x [<- H]]. apply filter_In in H. destruct H as [H1 H2]. exists x. split; [exact H1|]. split; [|reflexivity].
    destruct (Reqb_spec x 0); [discriminate H2|assumption].
  - intros [x [H1 [H2 ->]]]. exists x. split; [reflexivity|]. apply filter_In. split; [exact H1|]. destruct (Reqb_spec x 0); [contradiction|reflexivity].
Qed.
Lemma ln10_pos : 0 < ln 10. Proof. rewrite <- ln_1. apply ln_increasing; lra. Qed.
Lemma log10_pow n : log10 (10 ^ n) = INR n.
Proof. unfold log10. rewrite ln_pow by lra. field. pose proof ln10_pos. lra. Qed.
Lemma log10_div x y : 0 < x -> 0 < y -> log10 (x / y) = log10 x - log10 y.
Proof. intros Hx Hy. unfold log10, Rdiv. rewrite (ln_mult x (/ y)), ln_Rinv by (try apply Rinv_0_lt_compat; assumption). field. pose proof ln10_pos. lra. Qed.
Lemma log10_mult x y : 0 < x -> 0 < y -> log10 (x * y) = log10 x + log10 y.
Proof. intros Hx Hy. unfold log10. rewrite ln_mult by assumption. field. pose proof ln10_pos. lra. Qed.
Lemma log10_inv x : 0 < x -> log10 (/ x) = - log10 x.
Proof. intros Hx. unfold log10. rewrite ln_Rinv by assumption. field. pose proof ln10_pos. lra. Qed.
Lemma log10_lt_inv x y : 0 < x -> 0 < y -> log10 x < log10 y -> x < y.
Proof.
  intros Hx Hy H. destruct (Rlt_le_dec x y) as [L|[L|L]]; [exact L| |]; exfalso.
  - pose proof (log10_lt y x Hy L). lra.
  - subst. lra.
Qed.
Lemma log10_le_iff x y : 0 < x -> 0 < y -> (log10 x <= log10 y <-> x <= y).
Proof.
  intros Hx Hy. split; intros H.
  - destruct (Rle_lt_dec x y) as [L|L]; [exact L|]. pose proof (log10_lt y x Hy L). lra.
  - destruct H as [H| ->]; [left; apply log10_lt; assumption|right; reflexivity].
Qed.
Lemma log10_lt_iff x y : 0 < x -> 0 < y -> (log10 x < log10 y <-> x < y).
Proof. intros Hx Hy. split; intros H; [apply log10_lt_inv; assumption|apply log10_lt; assumption]. Qed.

(** Some pair is far apart: then a pair of ends is. *)
Lemma ends_in l v : In v (both_ends l) -> In v l.
Proof.
  destruct l as [|x r]; [intros []|]. cbn [both_ends]. intros [<-|[<-|[]]]; [apply (proj1 (vmin_spec x r))|apply (proj1 (vmax_spec x r))].
Qed.
Lemma ends_around l v : In v l -> exists a b, In a (both_ends l) /\ In b (both_ends l) /\ a <= v <= b.
Proof.
  destruct l as [|x r]; [intros []|]. intros H. exists (vmin x r), (vmax x r). split; [left; reflexivity|]. split; [right; left; reflexivity|].
  split; [apply (proj2 (vmin_spec x r)), H|apply (proj2 (vmax_spec x r)), H].
Qed.
Lemma far_ends (D O : list R) t : existsb (fun d => existsb (fun o => Rleb t (Rabs (d - o))) (both_ends O)) (both_ends D) = true
  <-> exists d o, In d D /\ In o O /\ t <= Rabs (d - o).
Proof.
  rewrite existsb_exists. split.
  - intros [d [Hd H]]. apply existsb_exists in H. destruct H as [o [Ho H]]. exists d, o. split; [apply ends_in, Hd|]. split; [apply ends_in, Ho|].
    destruct (Rleb_spec t (Rabs (d - o))); [assumption|discriminate H].
  - intros [d [o [Hd [Ho H]]]]. destruct (ends_around D d Hd) as [da [db [H1 [H2 H3]]]]. destruct (ends_around O o Ho) as [oa [ob [H4 [H5 H6]]]].
    destruct (Rle_lt_dec o d) as [L|L].
    + rewrite Rabs_right in H by lra. exists db. split; [exact H2|]. apply existsb_exists. exists oa. split; [exact H4|].
      destruct (Rleb_spec t (Rabs (db - oa))) as [|G]; [reflexivity|]. rewrite Rabs_right in G by lra. lra.
    + rewrite Rabs_left in H by lra. exists da. split; [exact H1|]. apply existsb_exists. exists ob. split; [exact H5|].
      destruct (Rleb_spec t (Rabs (da - ob))) as [|G]; [reflexivity|]. rewrite Rabs_left in G by lra. lra.
Qed.

(** An entry away from zero excludes the first message. *)
Lemma not_all_small n M : forallb close_to_zero (off_diagonal n M) = false ->
  andb (forallb (fun v => Rleb v (-10)) (log_sizes (diagonal_of n M))) (forallb (fun v => Rleb v (-10)) (log_sizes (off_diagonal n M))) = false.
Proof.
  intros H. destruct (forallb (fun v => Rleb v (-10)) (log_sizes (off_diagonal n M))) eqn:E; [|rewrite andb_false_r; reflexivity]. exfalso.
  assert (G : forall x, In x (off_diagonal n M) -> close_to_zero x = true).
  { intros x Hx. unfold close_to_zero. destruct (Rleb_spec (Rabs x) (/ 10 ^ 8)) as [|L]; [reflexivity|]. apply Rnot_le_lt in L. exfalso.
    assert (P : 0 < / 10 ^ 8) by (apply Rinv_0_lt_compat, pow_lt; lra).
    assert (N : x <> 0). { intros ->. rewrite Rabs_R0 in L. lra. }
    rewrite forallb_forall in E. specialize (E (log10 (Rabs x))). assert (Hin : In (log10 (Rabs x)) (log_sizes (off_diagonal n M))).
    { apply in_logs. exists x. repeat split; assumption. }
    specialize (E Hin). destruct (Rleb_spec (log10 (Rabs x)) (-10)) as [L2|]; [|discriminate E].
    apply log10_lt in L; [|exact P]. rewrite log10_inv, log10_pow in L by (apply pow_lt; lra). cbn in L. lra. }
  assert (T : forallb close_to_zero (off_diagonal n M) = true) by (apply forallb_forall; exact G). congruence.
Qed.

Lemma finalize_cases n M t : finalize n M t = [] \/ finalize n M t = [RatioExceeds; Recommend].
Proof.
  unfold finalize. destruct (forallb close_to_zero (off_diagonal n M)) eqn:E; [left; reflexivity|]. rewrite (not_all_small n M E).
  destruct (existsb _ _); [right|left]; reflexivity.
Qed.
Theorem warnings_cases : forall K, kde_warnings K = [] \/ kde_warnings K = [RatioExceeds; Recommend].
Proof. intros K. unfold kde_warnings. destruct (kd_kernel K) as [k|]; [apply finalize_cases|left; reflexivity]. Qed.
Theorem never_small : forall n M t, ~ In AllSmall (finalize n M t).
Proof. intros n M t. destruct (finalize_cases n M t) as [-> | ->]; [intros []|intros [H|[H|[]]]; discriminate H]. Qed.

Lemma sized_in (L : list R) v : In v (filter (fun v => Rltb (-20) v) (log_sizes L)) <-> exists x, In x L /\ / 10 ^ 20 < Rabs x /\ v = log10 (Rabs x).
Proof.
  assert (P : 0 < / 10 ^ 20) by (apply Rinv_0_lt_compat, pow_lt; lra).
  assert (E20 : log10 (/ 10 ^ 20) = -20). { rewrite log10_inv, log10_pow by (apply pow_lt; lra). cbn. lra. }
  rewrite filter_In, in_logs. split.
  - intros [[x [H1 [H2 ->]]] H3]. exists x. split; [exact H1|]. split; [|reflexivity]. destruct (Rltb_spec (-20) (log10 (Rabs x))) as [L1|]; [|discriminate H3].
    apply log10_lt_iff; [exact P|apply Rabs_pos_lt, H2|rewrite E20; exact L1].
  - intros [x [H1 [H2 ->]]]. assert (N : x <> 0). { intros ->. rewrite Rabs_R0 in H2. lra. }
    split; [exists x; repeat split; assumption|]. destruct (Rltb_spec (-20) (log10 (Rabs x))) as [|L1]; [reflexivity|]. exfalso.
    assert (G : log10 (/ 10 ^ 20) < log10 (Rabs x)) by (apply log10_lt; assumption). lra.
Qed.

Lemma far_logs a b : 0 < a -> 0 < b -> (5 <= Rabs (log10 a - log10 b) <-> 10 ^ 5 * b <= a \/ 10 ^ 5 * a <= b).
Proof.
  intros Ha Hb. assert (P : 0 < 10 ^ 5) by (apply pow_lt; lra).
  assert (E1 : log10 (10 ^ 5 * b) = 5 + log10 b). { rewrite log10_mult, log10_pow by assumption. cbn. lra. }
  assert (E2 : log10 (10 ^ 5 * a) = 5 + log10 a). { rewrite log10_mult, log10_pow by assumption. cbn. lra. }
  rewrite <- (log10_le_iff (10 ^ 5 * b) a), <- (log10_le_iff (10 ^ 5 * a) b) by (try apply Rmult_lt_0_compat; assumption). rewrite E1, E2.
  split.
  - intros H. destruct (Rle_lt_dec 0 (log10 a - log10 b)) as [L|L]; [rewrite Rabs_right in H by lra; left; lra|rewrite Rabs_left in H by lra; right; lra].
  - intros [H|H]; [rewrite Rabs_right by lra; lra|rewrite Rabs_left by lra; lra].
Qed.

Theorem warns_iff : forall n M, finalize n M 5 <> [] <->
  (exists i j, (i < n)%nat /\ (j < n)%nat /\ i <> j /\ / 10 ^ 8 < Rabs (M i j))
  /\ exists i j k, (i < n)%nat /\ (j < n)%nat /\ (k < n)%nat /\ j <> k /\ / 10 ^ 20 < Rabs (M i i) /\ / 10 ^ 20 < Rabs (M j k)
     /\ (10 ^ 5 * Rabs (M j k) <= Rabs (M i i) \/ 10 ^ 5 * Rabs (M i i) <= Rabs (M j k)).
Proof.
  intros n M. assert (P : 0 < / 10 ^ 20) by (apply Rinv_0_lt_compat, pow_lt; lra).
  unfold finalize. destruct (forallb close_to_zero (off_diagonal n M)) eqn:E.
  - split; [intros H; contradiction|]. intros [[i [j [Hi [Hj [N L]]]]] _]. exfalso. rewrite forallb_forall in E.
    assert (G : close_to_zero (M i j) = true). { apply E, in_off. exists i, j. repeat split; assumption. }
    unfold close_to_zero in G. destruct (Rleb_spec (Rabs (M i j)) (/ 10 ^ 8)); [lra|discriminate G].
  - rewrite (not_all_small n M E). cbn [app]. assert (H1 : exists i j, (i < n)%nat /\ (j < n)%nat /\ i <> j /\ / 10 ^ 8 < Rabs (M i j)).
    { assert (X : exists x, In x (off_diagonal n M) /\ close_to_zero x = false).
      { clear -E. induction (off_diagonal n M) as [|x l IH]; [discriminate E|]. cbn in E. apply andb_false_iff in E. destruct E as [E|E].
        - exists x. split; [left; reflexivity|exact E].
        - destruct (IH E) as [y [Hy Ey]]. exists y. split; [right; exact Hy|exact Ey]. }
      destruct X as [x [Hx Ex]]. apply in_off in Hx. destruct Hx as [i [j [Hi [Hj [N ->]]]]]. exists i, j. repeat split; try assumption.
      unfold close_to_zero in Ex. destruct (Rleb_spec (Rabs (M i j)) (/ 10 ^ 8)); [discriminate Ex|lra]. }
    match goal with |- context [existsb ?f ?l] => destruct (existsb f l) eqn:F end.
    + split; [intros _|intros _ Q; discriminate Q]. split; [exact H1|]. apply far_ends in F. destruct F as [d [o [Hd [Ho T]]]].
      apply sized_in in Hd. destruct Hd as [x [Hx [Lx ->]]]. apply sized_in in Ho. destruct Ho as [y [Hy [Ly ->]]].
      apply in_diagonal in Hx. destruct Hx as [i [Hi ->]]. apply in_off in Hy. destruct Hy as [j [k [Hj [Hk [N ->]]]]].
      exists i, j, k. repeat split; try assumption. apply far_logs in T; [exact T|lra|lra].
    + split; [intros Q; contradiction|]. intros [_ [i [j [k [Hi [Hj [Hk [N [Lx [Ly T]]]]]]]]]]. exfalso.
      apply far_logs in T; [|lra|lra].
      match type of F with ?e = false => assert (F2 : e = true) end.
      { apply far_ends. exists (log10 (Rabs (M i i))), (log10 (Rabs (M j k))). split; [|split; [|exact T]].
        - apply sized_in. exists (M i i). split; [apply in_diagonal; exists i; split; [exact Hi|reflexivity]|]. split; [exact Lx|reflexivity].
        - apply sized_in. exists (M j k). split; [apply in_off; exists j, k; repeat split; assumption|]. split; [exact Ly|reflexivity]. }
      congruence.
Qed.
Theorem kde_warns : forall K k, kd_kernel K = Some k -> kde_warnings K = finalize (k_ndim k) (k_matrix k) 5.
Proof. intros K k H. unfold kde_warnings. rewrite H. reflexivity. Qed.

Theorem uncorrelated_silent : forall n M, (forall i j, (i < n)%nat -> (j < n)%nat -> i <> j -> Rabs (M i j) <= / 10 ^ 8) -> finalize n M 5 = [].
Proof.
  intros n M H. destruct (finalize_cases n M 5) as [E|E]; [exact E|]. exfalso. assert (G : finalize n M 5 <> []) by (rewrite E; discriminate).
  apply warns_iff in G. destruct G as [[i [j [Hi [Hj [N L]]]]] _]. specialize (H i j Hi Hj N). lra.
Qed.

(** One dataset in two units. *)
Definition four (c e : R) : list pt :=
  [(fun i => if Nat.eqb i 0 then c else c * (1 + e)); (fun i => if Nat.eqb i 0 then - c else - c * (1 + e));
   (fun i => if Nat.eqb i 0 then c else c * (e - 1)); (fun i => if Nat.eqb i 0 then - c else c * (1 - e))].
Definition four_cov (c e : R) : mat := fun i j =>
  4 * c * c / 3 * (if Nat.eqb i 0 then (if Nat.eqb j 0 then 1 else e) else (if Nat.eqb j 0 then e else 1 + e * e)).
Lemma four_built c e : exists K, kde_init 2 (four c e) WNone (BwAtom (BNum 1)) false None Gaussian None None None = Ok K
  /\ exists M, kd_kernel K = Some (mkKernel Gaussian 2 M) /\ forall i j, M i j = four_cov c e i j.
Proof.
  assert (F : cov_fact (combine (four c e) [1; 1; 1; 1]) = 3). { unfold cov_fact, four. cbn. field. }
  assert (Mn : forall i, wmean (combine (four c e) [1; 1; 1; 1]) i = 0). { intros i. unfold wmean, four. cbn. destruct (Nat.eqb i 0); field. }
  unfold kde_init. change (length (four c e)) with 4%nat. cbn [Nat.eqb check_weights bind set_bandwidth compute_bandwidth].
  unfold np_cov, wdata_of, wlist. change (map (fun _ : pt => 1) (four c e)) with [1; 1; 1; 1]. rewrite F.
  destruct (Rleb_spec 3 0) as [X|_]; [lra|]. cbn [bind kernel_init].
  eexists. split; [reflexivity|]. eexists. split; [reflexivity|]. intros i j. unfold kernel_matrix. unfold four_cov, four. cbn [combine sumf fold_right fst snd map].
  pose proof (Mn i) as Hi. pose proof (Mn j) as Hj. unfold four in Hi, Hj. cbn [combine] in Hi, Hj. cbn. rewrite Hi, Hj.
  destruct (Nat.eqb i 0), (Nat.eqb j 0); field.
Qed.
Theorem units_refuted : exists n data c K K', 0 < c
  /\ kde_init n data WNone (BwAtom (BNum 1)) false None Gaussian None None None = Ok K
  /\ kde_init n (map (fun (d : pt) i => c * d i) data) WNone (BwAtom (BNum 1)) false None Gaussian None None None = Ok K'
  /\ kde_warnings K <> [] /\ kde_warnings K' = [].
Proof.
  destruct (four_built 1 (/ 10 ^ 6)) as [K [HK [M [EM HM]]]]. destruct (four_built (/ 10 ^ 2) (/ 10 ^ 6)) as [K' [HK' [M' [EM' HM']]]].
  exists 2%nat, (four 1 (/ 10 ^ 6)), (/ 10 ^ 2), K, K'. split; [lra|]. split; [exact HK|]. split; [|split].
  - rewrite <- HK'. f_equal. unfold four. cbn [map].
    repeat f_equal; apply functional_extensionality; intros i; destruct (Nat.eqb i 0); ring.
  - rewrite (kde_warns _ _ EM). cbn [k_ndim k_matrix]. apply warns_iff. split.
    + exists 0%nat, 1%nat. repeat split; try lia. rewrite HM. unfold four_cov. cbn [Nat.eqb]. rewrite Rabs_right by lra. lra.
    + exists 0%nat, 0%nat, 1%nat. repeat split; try lia; rewrite ?HM; unfold four_cov; cbn [Nat.eqb]; rewrite ?Rabs_right by lra; try lra.
  - rewrite (kde_warns _ _ EM'). cbn [k_ndim k_matrix]. apply uncorrelated_silent. intros i j Hi Hj N. rewrite HM'. unfold four_cov.
    destruct i as [|[|i]]; destruct j as [|[|j]]; try lia; cbn [Nat.eqb]; rewrite ?Rabs_right by lra; lra.
Qed.
(** A single point of several parameters. *)
Theorem single_silent : forall n (p : pt) b diag resc d refl K, kde_init n [p] WNone b diag resc d None None refl = Ok K -> kde_warnings K = [].
Proof.
  intros n p b diag resc d refl K H. unfold kde_init in H. cbn [length Nat.eqb check_weights bind] in H.
  destruct (set_bandwidth _ n diag b resc) as [bw|e]; [|discriminate H]. cbn [bind] in H. injection H as <-. unfold kde_warnings. cbn [kd_kernel].
  unfold np_cov. replace (cov_fact (wdata_of [p] None)) with 0; [|unfold cov_fact, wdata_of; cbn; field].
  destruct (Rleb_spec 0 0) as [_|X]; [reflexivity|lra].
Qed.

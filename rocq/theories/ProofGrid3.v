(** Gaussian KDE: positive everywhere; consequences for KDE.cdf (C32, C33); histogram points outside their bins (C31). *)
From Coq Require Import ZArith.
From Verif Require Import Base ModelLinAlg SpecLinAlg ProofLinAlg ModelKernels SpecKernels ModelKDE ModelExtrema ModelInterp ModelResample ModelUtils ModelNd ModelGrid SpecUtils SpecKDE SpecNd
  ProofKernels ProofKDE ProofTop ProofTop2 ProofTop3 ProofInterp ProofUtils ProofNd ProofNd2 ProofGrid ProofCdf.
Open Scope R_scope.
Notation length := List.length.

Lemma sumf_pos_combine (g : pt -> R) data ws : length ws = length data -> (forall v, In v ws -> 0 <= v) -> 0 < lsum ws -> (forall y, 0 < g y) ->
  0 < sumf (fun dw : pt * R => snd dw * g (fst dw)) (combine data ws).
Proof.
  revert ws. induction data as [|a data IH]; intros [|w ws] Hl Hp Hs Hg; cbn in Hl; try discriminate Hl; [cbn in Hs; lra|].
  cbn [combine]. rewrite sumf_cons. cbn [fst snd]. cbn [lsum] in Hs. pose proof (Hp w (or_introl eq_refl)) as Hw. pose proof (Hg a) as Ha.
  assert (Hp' : forall v, In v ws -> 0 <= v) by (intros v Hv; apply Hp; right; exact Hv).
  assert (H0 : 0 <= sumf (fun dw : pt * R => snd dw * g (fst dw)) (combine data ws)).
  { apply sumf_nonneg. intros [d v] Hin. apply in_combine_r in Hin. cbn. apply Rmult_le_pos; [apply Hp', Hin|left; apply Hg]. }
  destruct Hw as [Hw|Hw].
  - pose proof (Rmult_lt_0_compat _ _ Hw Ha). lra.
  - rewrite <- Hw in *. assert (0 < lsum ws) by lra. pose proof (IH ws ltac:(lia) Hp' H Hg). lra.
Qed.
Lemma gaussian_pos n data ws M K : (1 <= n)%nat -> built_kde n data ws Gaussian M None K -> exists f, kde_density K true n None PNone = Ok f /\ forall x, 0 < f x.
Proof.
  intros Hn HB. assert (HB' := HB). destruct HB' as [[w [b [diag [resc [cova [neffa [Hg HK]]]]]]] [Hk [Hs Hp]]].
  destruct (kde_weights_of _ _ _ _ _ _ _ _ _ _ _ _ Hg HK) as [_ [_ [_ [_ [_ [Hl [Hnn [Hpos _]]]]]]]].
  destruct (kernel_density_plain Gaussian n M data (Some ws) Hs Hp) as [N [W [HN [_ [_ [Hinv _]]]]]]; [intros ? E; injection E as <-; exact Hl|].
  destruct (top_textbook n data ws Gaussian M K N Hn HB Hinv) as [Z [f [g [HZ [_ [_ [Hgd Hv]]]]]]]. exists g. split; [exact Hgd|]. intros x. destruct (Hv x) as [E1 E2]. rewrite E2, E1.
  apply Rmult_lt_0_compat; [|apply Rinv_0_lt_compat, Hpos]. apply Rmult_lt_0_compat; [|apply Rinv_0_lt_compat, HZ].
  unfold spec_sum. apply (sumf_pos_combine (fun y => spec_prof Gaussian (quad n N (psub x y)))); try assumption. intros y. apply exp_pos.
Qed.
Lemma trapezoid_pos x g : (2 <= length x)%nat -> (forall i j, (i < j < length x)%nat -> nth i x 0 < nth j x 0) -> (forall i, (i < length x)%nat -> 0 < g i) -> 0 < trapezoid x g.
Proof.
  intros Hl Hi Hg. unfold trapezoid. assert (H : forall n, (n <= length x - 1)%nat -> (1 <= n)%nat -> 0 < rsum n (fun j => (nth (S j) x 0 - nth j x 0) * (g j + g (S j)) / 2)).
  { induction n as [|n IH]; intros H1 H2; [lia|]. cbn [rsum]. assert (T : 0 < (nth (S n) x 0 - nth n x 0) * (g n + g (S n)) / 2).
    { pose proof (Hi n (S n) ltac:(lia)). pose proof (Hg n ltac:(lia)). pose proof (Hg (S n) ltac:(lia)). apply Rmult_lt_0_compat; [|lra]. apply Rmult_lt_0_compat; lra. }
    destruct n as [|n]; [cbn [rsum]; lra|]. pose proof (IH ltac:(lia) ltac:(lia)). lra. }
  apply H; lia.
Qed.
Lemma trapezoids_pos grid : is_grid grid -> forall f, (forall idx, 0 < f idx) -> 0 < trapezoids grid f.
Proof.
  induction grid as [|g gs IH]; intros HG f Hf; cbn [trapezoids]; [apply Hf|]. destruct (HG g (or_introl eq_refl)) as [Hl Hi]. apply trapezoid_pos; try assumption.
  intros i _. apply IH; [apply (is_grid_tail g), HG|]. intros idx. apply Hf.
Qed.
(** C32 *)
Theorem cdf_on_grid_init n data w b diag resc d cova neffa refl K grid f : kde_init n data w b diag resc d cova neffa refl = Ok K ->
  is_grid grid -> kde_density K true (length grid) None PNone = Ok f -> 0 < trapezoids grid (fun idx => f (grid_point grid idx)) ->
  exists c, (forall x, length x = length grid -> kde_cdf K grid false false x = Ok (Fin (c x)))
  /\ (forall idx, inb (map (@List.length R) grid) idx ->
        c (node grid idx) = trapezoids (cut_edges grid idx) (fun i => f (grid_point grid i)) / trapezoids grid (fun i => f (grid_point grid i)))
  /\ (forall x, in_grid grid x -> 0 <= c x <= 1)
  /\ (forall x y, in_grid grid x -> in_grid grid y -> Forall2 Rle x y -> c x <= c y)
  /\ (forall x k, in_grid grid x -> (k < length grid)%nat -> nth k x 0 = nth 0 (nth k grid []) 0 -> c x = 0)
  /\ c (map (fun g => nth (List.length g - 1) g 0) grid) = 1.
Proof. intros HK HG Hf HT. apply cdf_on_grid; try assumption. intros x. apply (kde_nonneg _ _ _ _ _ _ _ _ _ _ _ _ _ _ _ _ x HK Hf). Qed.
Theorem cdf_gaussian n data ws M K grid : (1 <= n)%nat -> built_kde n data ws Gaussian M None K -> is_grid grid -> length grid = n ->
  exists c, (forall x, length x = n -> kde_cdf K grid false false x = Ok (Fin (c x)))
  /\ (forall x, in_grid grid x -> 0 <= c x <= 1)
  /\ (forall x y, in_grid grid x -> in_grid grid y -> Forall2 Rle x y -> c x <= c y)
  /\ (forall x k, in_grid grid x -> (k < n)%nat -> nth k x 0 = nth 0 (nth k grid []) 0 -> c x = 0)
  /\ c (map (fun g => nth (List.length g - 1) g 0) grid) = 1.
Proof.
  intros Hn HB HG Hl. destruct (gaussian_pos n data ws M K Hn HB) as [f [Hf Hp]]. rewrite <- Hl in Hf. subst n.
  destruct (cdf_on_grid K grid f HG Hf (fun x => Rlt_le _ _ (Hp x)) (trapezoids_pos grid HG _ (fun idx => Hp (grid_point grid idx)))) as [c [H1 [H2 [H3 [H4 [H5 H6]]]]]].
  exists c. repeat (split; [assumption|]). exact H6.
Qed.
(** C33 *)
Theorem cdf_outside_gaussian data ws M K g x : built_kde 1 data ws Gaussian M None K -> is_grid [g] ->
  (nth (List.length g - 1) g 0 < x -> exists v, kde_cdf K [g] false false [x] = Ok (Fin v) /\ 1 < v)
  /\ (x < nth 0 g 0 -> exists v, kde_cdf K [g] false false [x] = Ok (Fin v) /\ v < 0).
Proof.
  intros HB HG. destruct (gaussian_pos 1 data ws M K (le_n 1) HB) as [f [Hf Hp]]. destruct (HG g (or_introl eq_refl)) as [Hl Hi].
  destruct (cdf_outside K g f HG Hf (fun x => Rlt_le _ _ (Hp x)) (trapezoid_pos g _ Hl Hi (fun i _ => Hp _))) as [A B].
  split; [apply A|apply B]; match goal with |- 0 < ?u + ?v => assert (0 < u) by apply Hp; assert (0 < v) by apply Hp; lra end.
Qed.
(** C31 *)
Theorem from_hist_outside_bins : exists bins hist K i, incr_list bins /\ length hist = (length bins - 1)%nat /\ (forall x, In x hist -> 0 < x)
  /\ from_hist_1d bins hist None false None Gaussian None None None = Ok K /\ (S i < length bins)%nat
  /\ ~ (nth i bins 0 <= nth i (kd_data K) (fun _ => 0) 0%nat <= nth (S i) bins 0).
Proof.
  exists [0; 1; 4], [1; 1].
  assert (HK : exists K, from_hist_1d [0; 1; 4] [1; 1] None false None Gaussian None None None = Ok K).
  { unfold from_hist_1d. cbn [bin_centers bind fst snd map removelast]. unfold fdiv. cbn [lsum].
    destruct (Reqb_spec ((1 + (1 + 0)) * (4 - 1)) 0) as [E|E]; [lra|]. cbn [kde_init length Nat.eqb].
    unfold kde_init. cbn [length Nat.eqb map]. unfold check_weights. cbn [length Nat.eqb negb existsb]. unfold f_nonzero, f_isfinite, f_neg.
    destruct (Reqb_spec (1 / ((1 + (1 + 0)) * (4 - 1))) 0) as [E1|E1]; [lra|]. cbn [negb orb].
    destruct (Rltb_spec (1 / ((1 + (1 + 0)) * (4 - 1))) 0) as [E2|E2]; [lra|]. cbn [orb negb bind]. eexists. reflexivity. }
  destruct HK as [K HK]. exists K, 0%nat. destruct (from_hist_1d_points _ _ _ _ _ _ _ _ _ _ HK) as [_ Hp].
  split; [|split; [reflexivity|split; [|split; [exact HK|split; [cbn; lia|]]]]].
  - intros i j Hij Hj. cbn in Hj. destruct j as [|[|[|]]]; destruct i as [|[|[|]]]; cbn; try lia; lra.
  - intros x [<-|[<-|[]]]; lra.
  - rewrite (Hp 0%nat) by (cbn; lia). cbn [nth]. lra.
Qed.
Theorem cdf_bounded_refuted : exists K x v, kde_init 1 [p0; p1] (WArr (map Fin [3; 1])) (BwAtom (BNum 1)) false None Gaussian (Some ident) None None = Ok K
  /\ kde_cdf K [[0; 1; 3]] false false [x] = Ok (Fin v) /\ ~ (0 <= v <= 1).
Proof.
  destruct (unit_kde 1 [p0; p1] [3; 1] Gaussian None) as [K [HK [HB _]]]; [discriminate|reflexivity| | |].
  - intros v [<-|[<-|[]]]; lra.
  - exists 3. split; [left; reflexivity|lra].
  - assert (HG : is_grid [[0; 1; 3]]).
    { intros g [<-|[]]. split; [cbn; lia|]. intros i j Hij. cbn in Hij. destruct j as [|[|[|]]]; destruct i as [|[|[|]]]; cbn; try lia; lra. }
    destruct (cdf_outside_gaussian _ _ _ _ [0; 1; 3] 4 HB HG) as [A _]. destruct A as [v [Hv H1]]; [cbn; lra|]. exists K, 4, v. split; [exact HK|]. split; [exact Hv|]. lra.
Qed.
Lemma density_refl_exists_none n data ws d M K (prob : bool) : built_kde n data ws d M None K -> (1 <= n)%nat -> exists f, kde_density K prob n None PNone = Ok f.
Proof.
  intros HB Hn. assert (HB' := HB). destruct HB' as [[w [b [diag [resc [cova [neffa [Hg HK]]]]]]] [Hk [Hs Hp]]].
  destruct (kde_weights_of _ _ _ _ _ _ _ _ _ _ _ _ Hg HK) as [_ [_ [_ [_ [_ [Hl _]]]]]].
  destruct (kernel_density_plain d n M data (Some ws) Hs Hp) as [N [W [HN [_ [_ [Hinv _]]]]]]; [intros ? E; injection E as <-; exact Hl|].
  destruct (top_textbook n data ws d M K N Hn HB Hinv) as [Z [f [g [HZ [_ [Hf [Hgd Hv]]]]]]]. destruct prob; [exists g; exact Hgd|exists f; exact Hf].
Qed.

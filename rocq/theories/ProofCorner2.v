(** Proofs about corner plots: data inside the limits (C58), targets (C63), legends (C64), one pair of limits, origin, weights. *)
From Coq Require Import String Ascii ZArith.
From Verif Require Import Base ModelLinAlg ModelKernels ModelKDE ModelExtrema ModelUtils ModelGrid ModelApi ModelCorner ModelOptions SpecUtils SpecCorner
  ProofExtrema ProofUtils ProofUtils2 ProofUtils3 ProofNested ProofGrid2 ProofCorner.
Open Scope R_scope.
Notation length := List.length.

(* ------------------------------------------------------------ edges *)
Lemma guess_total sorter row ndim nmin nmax refine bw : row <> [] -> 0 < refine ->
  exists n bwd, guess_edges sorter row (lmin row, lmax row) ndim None nmin nmax refine bw = Ok (n, bwd) /\ 0 < bwd /\ (Nat.min nmin nmax <= n <= nmax)%nat.
Proof.
  intros Hne Hr. destruct (Rlt_dec (lmin row) (lmax row)) as [L|L]; [apply guess_ok; auto|].
  assert (EQ : lmin row = lmax row) by (pose proof (lmin_lmax row Hne); lra).
  assert (AC : allclose row = true).
  { destruct row as [|d0 r]; [reflexivity|]. unfold allclose. apply forallb_forall. intros x Hx. apply Rleb_true.
    assert (x = d0). { pose proof (lmin_le _ _ Hx). pose proof (lmax_ge _ _ Hx). pose proof (lmin_le (d0 :: r) d0 (or_introl eq_refl)). pose proof (lmax_ge (d0 :: r) d0 (or_introl eq_refl)). lra. }
    subst x. replace (d0 - d0) with 0 by ring. rewrite Rabs_R0. assert (0 < (/ 10) ^ 8) by (apply pow_lt; lra). assert (0 <= (/ 10) ^ 5 * Rabs d0) by (apply Rmult_le_pos; [left; apply pow_lt; lra|apply Rabs_pos]). lra. }
  unfold guess_edges. cbn [bind].
  destruct (quantiles_total sorter row [3/4;1/4] (map (fun _ => 1) row) Hne (map_length _ _) ltac:(intros p [<-|[<-|[]]]; lra)) as [qs [E _]].
  rewrite quantiles_unweighted, E. cbn [bind fst snd]. replace (lmax row - lmin row) with 0 by lra. rewrite AC.
  assert (B : exists bwd, match filter (fun w => Rltb 0 w) [0 / (ln (if Rltb 100 (INR (length row)) then Rmax (INR (length row) / (INR ndim * INR ndim)) 100 else INR (length row)) / ln 2 + 1);
      2 * (vget qs 0 - vget qs 1) * Rpower (if Rltb 100 (INR (length row)) then Rmax (INR (length row) / (INR ndim * INR ndim)) 100 else INR (length row)) (- (1 / 3));
      bw / sqrt (if Rltb 100 (INR (length row)) then Rmax (INR (length row) / (INR ndim * INR ndim)) 100 else INR (length row))] with [] => Ok ((/ 10) ^ 16) | x :: r => Ok (vmin x r / refine) end = Ok bwd /\ 0 < bwd).
  { destruct (filter _ _) as [|x r] eqn:Ef.
    - exists ((/ 10) ^ 16). split; [reflexivity|apply pow_lt; lra].
    - exists (vmin x r / refine). split; [reflexivity|]. pose proof (vmin_in x r) as Hin. rewrite <- Ef in Hin. apply filter_In in Hin. destruct Hin as [_ Hin]. apply Rltb_true in Hin. apply Rmult_lt_0_compat; [exact Hin|apply Rinv_0_lt_compat, Hr]. }
  destruct B as (bwd & -> & HB). cbn [bind]. destruct (Rleb_spec 0 0); [|lra]. cbn [bind]. do 2 eexists. split; [reflexivity|]. split; [exact HB|]. lia.
Qed.
Definition auto_edge (e : edge1) : Prop := match e with EdAuto => True | EdNum n => (1 <= n)%nat | EdVec _ => False end.
Lemma edges_total sorter e row ndim : row <> [] -> e <> EdVec [] ->
  exists g, get_edges_1d sorter e row (lmin row, lmax row) ndim 5 1000 1 None 1 0 = Ok g /\ g <> []
    /\ (auto_edge e -> exists a b, In a g /\ In b g /\ forall x, In x row -> a <= x <= b).
Proof.
  intros Hne He. destruct e as [|n|l].
  3: { exists l. split; [reflexivity|]. split; [intros ->; contradiction (He eq_refl)|intros []]. }
  all: unfold get_edges_1d; destruct (guess_total sorter row ndim 5 1000 1 0 Hne ltac:(lra)) as (n0 & bwd & -> & HB & HN); cbn [bind fst snd].
  - eexists. split; [reflexivity|]. assert (LN : (2 <= n0 + 1)%nat) by lia. destruct (linspace_uniform (lmin row - 1 * bwd) (lmax row + 1 * bwd) _ LN) as (U1 & U2 & _).
    pose proof (linspace_length (lmin row - 1 * bwd) (lmax row + 1 * bwd) (n0 + 1)) as LL. set (g := linspace _ _ _) in *.
    split; [intros Z; rewrite Z in LL; cbn in LL; lia|]. intros _. exists (nth 0 g 0), (nth (length g - 1) g 0). split; [apply nth_In; lia|]. split; [apply nth_In; lia|].
    intros x Hx. rewrite U1, U2. pose proof (lmin_le _ _ Hx). pose proof (lmax_ge _ _ Hx). lra.
  - eexists. split; [reflexivity|]. pose proof (linspace_length (lmin row - 1 * bwd) (lmax row + 1 * bwd) (n + 1)) as LL.
    split; [intros Z; rewrite Z in LL; cbn in LL; lia|]. intros Hn. cbn in Hn. assert (LN : (2 <= n + 1)%nat) by lia. destruct (linspace_uniform (lmin row - 1 * bwd) (lmax row + 1 * bwd) _ LN) as (U1 & U2 & _).
    set (g := linspace _ _ _) in *. exists (nth 0 g 0), (nth (length g - 1) g 0). split; [apply nth_In; lia|]. split; [apply nth_In; lia|].
    intros x Hx. rewrite U1, U2. pose proof (lmin_le _ _ Hx). pose proof (lmax_ge _ _ Hx). lra.
Qed.
(** The values of a call: one non-empty vector per parameter, containing the data in its range. *)
Lemma values_total sorter size k : plottable size k ->
  exists vals, call_values sorter k = Ok vals /\ length vals = size /\ (forall v, In v vals -> v <> [])
    /\ (automatic k \/ pc_kde k = false -> forall i, (i < size)%nat -> exists a b, In a (nth i vals []) /\ In b (nth i vals []) /\ forall x, In x (nth i (pc_data k) []) -> a <= x <= b).
Proof.
  intros (HL & HR & HE). unfold call_values, plot_edges.
  assert (ES : exists es, (match pc_edges k with EdAll e => Ok (repeat e (length (pc_data k))) | EdEach l => if Nat.eqb (length l) (length (pc_data k)) then Ok l else Err ValueError end) = Ok es
     /\ length es = size /\ (forall i, (i < size)%nat -> nth i es EdAuto <> EdVec []) /\ (automatic k -> forall i, (i < size)%nat -> auto_edge (nth i es EdAuto))).
  { unfold automatic. destruct (pc_edges k) as [e|l].
    - exists (repeat e (length (pc_data k))). split; [reflexivity|]. rewrite HL. split; [apply repeat_length|].
      assert (N : forall i, (i < size)%nat -> nth i (repeat e size) EdAuto = e) by (intros i Hi; rewrite (nth_indep _ _ e) by (rewrite repeat_length; exact Hi); apply nth_repeat).
      split; [intros i Hi; rewrite N by exact Hi; exact HE|]. intros HA i Hi. rewrite N by exact Hi. exact HA.
    - destruct HE as [HE1 HE2]. exists l. rewrite HL, HE1, Nat.eqb_refl. split; [reflexivity|]. split; [reflexivity|]. split.
      + intros i Hi Z. apply HE2. rewrite <- Z. apply nth_In. lia.
      + intros HA i Hi. apply HA, nth_In. lia. }
  destruct ES as (es & -> & LE & NE & AE). cbn [bind]. rewrite HL.
  destruct (mapM_ok (fun ii => get_edges_1d sorter (nth ii es EdAuto) (nth ii (pc_data k) []) (lmin (nth ii (pc_data k) []), lmax (nth ii (pc_data k) [])) size 5 1000 1 None 1 0)
     (fun ii g => g <> [] /\ (auto_edge (nth ii es EdAuto) -> exists a b, In a g /\ In b g /\ forall x, In x (nth ii (pc_data k) []) -> a <= x <= b)) (seq 0 size)) as (gs & EG & FG).
  { intros ii Hi. apply in_seq in Hi. destruct (edges_total sorter (nth ii es EdAuto) (nth ii (pc_data k) []) size) as (g & E & N & C); [apply HR, nth_In; lia|apply NE; lia|]. exists g. auto. }
  cbv zeta. rewrite EG. cbn [bind]. assert (LG : length gs = size) by (rewrite <- (Forall2_length_eq _ _ _ FG), seq_length; reflexivity).
  assert (PG : forall i, (i < size)%nat -> nth i gs [] <> [] /\ (auto_edge (nth i es EdAuto) -> exists a b, In a (nth i gs []) /\ In b (nth i gs []) /\ forall x, In x (nth i (pc_data k) []) -> a <= x <= b)).
  { intros i Hi. pose proof (Forall2_nth _ _ _ 0%nat [] i FG ltac:(rewrite seq_length; exact Hi)) as X. cbv beta in X. rewrite seq_nth in X by exact Hi. exact X. }
  eexists. split; [reflexivity|]. destruct (pc_kde k).
  - split; [exact LG|]. split.
    + intros v Hv. apply (In_nth _ _ []) in Hv. destruct Hv as (i & Hi & <-). apply PG. lia.
    + intros [HA|HA]; [|discriminate HA]. intros i Hi. apply PG; [exact Hi|]. apply AE; assumption.
  - split; [exact HL|]. split; [exact HR|]. intros _ i Hi. assert (R : nth i (pc_data k) [] <> []) by (apply HR, nth_In; lia).
    exists (lmin (nth i (pc_data k) [])), (lmax (nth i (pc_data k) [])). split; [apply lmin_in, R|]. split; [apply lmax_in, R|]. intros x Hx. split; [apply lmin_le, Hx|apply lmax_ge, Hx].
Qed.

(* ------------------------------------------------------------ success, data inside *)
Lemma plot_limits_total user size rotate rss c vals limit : state_ok user size rotate rss c -> length vals = size -> (forall v, In v vals -> v <> []) ->
  exists c', plot_limits c vals limit = Ok c'.
Proof.
  intros (S1 & S2 & S3 & S4 & S5 & S6 & S7) HV HN. unfold plot_limits. rewrite S1, S2, HV, Nat.eqb_refl. cbn [negb].
  destruct (mapM_ok stretched (fun _ o => exists a b, o = Some (Some a, Some b) /\ a <= b) vals) as (ss & ES & FS).
  { intros v Hv. destruct (stretched_covers v (HN v Hv)) as (a & b & E & _ & L). exists (Some (Some a, Some b)). split; [exact E|]. exists a, b. auto. }
  rewrite ES. cbn [bind]. destruct (match limit with None => co_flag c | Some b => b end); [|eauto].
  assert (LS : length ss = size) by (rewrite <- (Forall2_length_eq _ _ _ FS); exact HV).
  destruct (mapM_ok_all (fun ii => extend (nth ii (co_limits c) LvNone) (nth ii ss None)) (seq 0 size)) as (ls & EL).
  { intros ii Hi. apply in_seq in Hi. destruct (Forall2_nth _ _ _ [] None ii FS ltac:(lia)) as (a & b & -> & L). destruct (extend_union _ _ a b (S5 ii ltac:(lia)) L) as (v & E & _). eauto. }
  rewrite mapM_limits by (intros i Hi; apply in_seq in Hi; lia). rewrite EL. cbn [bind]. assert (LL : length ls = size) by (apply mapM_Ok_Forall2 in EL; rewrite <- (Forall2_length_eq _ _ _ EL), seq_length; reflexivity).
  rewrite (skipn_all2 (co_limits c)) by lia. rewrite app_nil_r. destruct (set_extrema_plain size rotate ls (co_panels c) LL) as (ps & -> & _). cbn [bind]. eauto.
Qed.
Theorem plots_total sorter user size rotate ks : match user with None => True | Some l => length l = size end -> (forall k, In k ks -> plottable size k) ->
  exists c0 c, corner_init size rotate (user_pairs user) = Ok c0 /\ corner_plots sorter c0 ks = Ok c.
Proof.
  intros HU HK.
  assert (E0 : exists c0, corner_init size rotate (user_pairs user) = Ok c0).
  { unfold corner_init. destruct user as [l|]; cbn [user_pairs]; [|eauto]. destruct (set_extrema_plain size rotate (map (fun p : R * R => LvPair (fst p) (snd p)) l) (fresh_panels size)) as (ps & -> & _); [rewrite map_length; exact HU|]. cbn [bind]. eauto. }
  destruct E0 as (c0 & E0). exists c0. induction ks as [|k ks IH] using rev_ind; [exists c0; auto|].
  destruct IH as (c & _ & E); [intros x Hx; apply HK, in_or_app; auto|]. rewrite plots_snoc, E. cbn [bind].
  destruct (plots_ok sorter user size rotate c0 ks c (init_ok _ _ _ _ HU E0) E) as (rss & _ & HS & _).
  assert (P : plottable size k) by (apply HK, in_or_app; right; left; reflexivity). unfold corner_plot.
  destruct (values_total sorter size k P) as (vals & -> & LV & NV & _). cbn [bind]. destruct HS as (S1 & SR). rewrite S1, (proj1 P), Nat.eqb_refl. cbn [negb].
  destruct (plot_limits_total user size rotate rss c vals (pc_limit k) (conj S1 SR) LV NV) as (c' & ->). eauto.
Qed.

(** Every datum of every call that determines limits lies within the limits. *)
Theorem data_inside sorter user size rotate c0 ks c k i x : match user with None => True | Some l => length l = size end ->
  corner_init size rotate (user_pairs user) = Ok c0 -> corner_plots sorter c0 ks = Ok c ->
  In k ks -> effective (user_given user) k = true -> plottable size k -> (automatic k \/ pc_kde k = false) -> (i < size)%nat -> In x (nth i (pc_data k) []) ->
  exists a b, nth i (co_limits c) LvNone = LvPair a b /\ a <= x <= b.
Proof.
  intros HU E0 E Hk He HP HA Hi Hx. destruct (limits_union sorter user size rotate c0 ks c HU E0 E) as (rss & HC & _ & HL).
  assert (Hin : In k (filter (effective (user_given user)) ks)) by (apply filter_In; auto). apply (In_nth _ _ k) in Hin. destruct Hin as (q & Hq & Eq).
  pose proof (Forall2_nth _ _ _ k [] q HC Hq) as (vals & EV & LV & FV). rewrite Eq in EV. destruct (values_total sorter size k HP) as (vals' & EV' & _ & _ & HB). rewrite EV in EV'. injection EV' as <-.
  destruct (HB HA i Hi) as (a & b & Ha & Hb & Hab). pose proof (Forall2_nth _ _ _ [] (0, 0) i FV ltac:(lia)) as (m & M & Hm & HM & E1 & E2).
  assert (LR : length rss = length (filter (effective (user_given user)) ks)) by (symmetry; apply (Forall2_length_eq _ _ _ HC)).
  set (r := nth i (nth q rss []) (0, 0)) in *.
  assert (IN : In r (user_range user i ++ map (fun rs => nth i rs (0, 0)) rss)). { apply in_or_app. right. apply in_map_iff. exists (nth q rss []). split; [reflexivity|]. apply nth_In. lia. }
  specialize (HL i Hi). unfold union_of in HL. destruct (user_range user i ++ map (fun rs => nth i rs (0, 0)) rss) as [|z zs]; [destruct IN|].
  destruct HL as (lo & hi & EL & [_ Hlo] & [_ Hhi]). exists lo, hi. split; [exact EL|].
  pose proof (Hlo _ (in_map fst _ _ IN)). pose proof (Hhi _ (in_map snd _ _ IN)). pose proof (proj2 Hm _ Ha). pose proof (proj2 HM _ Hb). pose proof (Hab x Hx). assert (m <= M) by (apply (proj2 Hm), HM). lra.
Qed.

(** What a request for points means (C144). *)
From Coq Require Import ZArith.
From Verif Require Import Base ModelLinAlg ModelKernels ModelKDE ModelExtrema ModelInterp ModelResample ModelUtils ModelNd ModelGrid SpecUtils SpecKDE SpecGrid ModelEdges SpecEdges SpecLinAlg.
From Verif Require Import ProofAffine ProofKDE ProofExtrema ProofUtils ProofUtils2 ProofUtils3 ProofUtils4 ProofGrid2 SpecUnits ProofUnits ProofUnits2.
Open Scope R_scope.
Notation length := List.length.

Lemma e_scalar_iff l : e_really1d l = true <-> flat l.
Proof.
  unfold e_really1d, flat. rewrite forallb_forall. split; intros H e He; specialize (H e He).
  - destruct e; try discriminate H; [left; reflexivity|right; left; eexists; reflexivity|right; right; eexists; reflexivity].
  - destruct H as [->|[[z ->]|[r ->]]]; reflexivity.
Qed.
Lemma given_values_map l : given_values l (map e_value l).
Proof. unfold given_values. induction l as [|e l IH]; cbn; constructor; [destruct e; reflexivity|exact IH]. Qed.
Lemma spread_says n e : match edges_spread n e with
  | Ok es => length es = n /\ forall i, (i < n)%nat -> says n e i (Some (nth i es ENone))
  | Err x => x = ValueError /\ forall i, says n e i None
  end.
Proof.
  assert (G : forall e0 i, nth i (repeat e0 n) ENone = if Nat.ltb i n then e0 else ENone).
  { intros e0 i. destruct (Nat.ltb_spec i n) as [H|H].
    - rewrite (nth_indep _ ENone e0) by (rewrite repeat_length; exact H). apply nth_repeat.
    - apply nth_overflow. rewrite repeat_length. exact H. }
  destruct e as [|z|r|l]; cbn [edges_spread].
  1,2,3: split; [apply repeat_length|]; intros i Hi; rewrite G; apply Nat.ltb_lt in Hi; rewrite Hi; constructor.
  destruct (Nat.eqb_spec (length l) n) as [E|E]; cbn [negb andb].
  - rewrite andb_false_r. split; [exact E|]. intros i Hi. constructor; [exact E|]. apply nth_error_nth'. lia.
  - destruct (e_really1d l) eqn:Ef; cbn [andb].
    + split; [apply repeat_length|]. intros i Hi. rewrite G. apply Nat.ltb_lt in Hi. rewrite Hi. constructor; [exact E|apply e_scalar_iff, Ef|apply given_values_map].
    + split; [reflexivity|]. intros i. constructor; [exact E|]. intros Hf. apply e_scalar_iff in Hf. congruence.
Qed.
Lemma linspace_bins k lo hi : equal_bins k lo hi (map Some (linspace lo hi (k + 1))).
Proof.
  exists (linspace lo hi (k + 1)). split; [reflexivity|]. split; [rewrite linspace_length; lia|]. split.
  - destruct k as [|k]; [cbn; unfold Rdiv; ring|]. rewrite linspace_nth by lia. cbn [INR]. unfold Rdiv. ring.
  - intros i Hi. rewrite !linspace_nth by lia. replace (k + 1 - 1)%nat with k by lia. rewrite S_INR. assert (0 < INR k) by (apply lt_0_INR; lia). field. lra.
Qed.
Lemma edges_raw_asks sorter e data lo hi ndim w bw : data <> [] -> lo < hi -> weighs (length data) w ->
  asks lo hi e (edges_1d_raw sorter e data (lo, hi) ndim 3 200 0 w (sqrt 10) bw).
Proof.
  intros Hne Hlt Hw. destruct (guess_ok sorter data lo hi ndim w 3 200 (sqrt 10) bw Hne Hlt sqrt10_pos) as (n & b & E & Hb & Hn); [exact Hw|].
  destruct e as [|z|r|l|]; cbn [edges_1d_raw]; try constructor; rewrite E; cbn [bind fst snd].
  - destruct (Z.ltb_spec (Z.of_nat n + 1) 0); [lia|]. apply (asks_auto _ _ n); [lia|].
    replace (lo - 0 * b) with lo by ring. replace (hi + 0 * b) with hi by ring. replace (Z.to_nat (Z.of_nat n + 1)) with (n + 1)%nat by lia. apply linspace_bins.
  - destruct (Z.ltb_spec (z + 1) 0); [constructor; lia|]. destruct (Z.eq_dec z (-1)) as [->|Hz]; [constructor|].
    replace z with (Z.of_nat (Z.to_nat z)) at 1 by lia. constructor. replace (lo - 0 * b) with lo by ring. replace (hi + 0 * b) with hi by ring.
    replace (Z.to_nat (z + 1)) with (Z.to_nat z + 1)%nat by lia. apply linspace_bins.
  - constructor.
Qed.
Lemma mapM_err_first {B} (f : nat -> res B) x n s : mapM f (seq s n) = Err x -> exists i, (i < n)%nat /\ f (s + i)%nat = Err x /\ forall j, (j < i)%nat -> exists r, f (s + j)%nat = Ok r.
Proof.
  revert s. induction n as [|n IH]; intros s H; cbn [seq mapM] in H; [discriminate|].
  destruct (f s) as [b|y] eqn:Ef; cbn [bind] in H.
  - destruct (mapM f (seq (S s) n)) as [l|y] eqn:Em; cbn [bind] in H; [discriminate|]. injection H as ->. destruct (IH _ Em) as (i & Hi & H1 & H2).
    exists (S i). split; [lia|]. split; [replace (s + S i)%nat with (S s + i)%nat by lia; exact H1|].
    intros [|j] Hj; [rewrite Nat.add_0_r; eexists; exact Ef|]. replace (s + S j)%nat with (S s + j)%nat by lia. apply H2. lia.
  - injection H as ->. exists O. rewrite Nat.add_0_r. split; [lia|]. split; [exact Ef|]. intros j Hj. lia.
Qed.
(** The whole argument. *)
Theorem points_meaning sorter n data w b diag resc d cova neffa refl K bw ext points : (1 <= n)%nat ->
  kde_init n data w b diag resc d cova neffa refl = Ok K -> length ext = n -> (forall p, In p ext -> fst p < snd p) ->
  match kde_points_raw sorter K bw ext points with
  | Ok g => length g = n /\ forall i, (i < n)%nat -> exists e, says n points i (Some e) /\ asks (fst (nth i ext (0, 0))) (snd (nth i ext (0, 0))) e (Ok (nth i g []))
  | Err x => (x = ValueError /\ forall i, says n points i None)
      \/ exists i e, (i < n)%nat /\ says n points i (Some e) /\ asks (fst (nth i ext (0, 0))) (snd (nth i ext (0, 0))) e (Err x)
         /\ forall j, (j < i)%nat -> exists e' g, says n points j (Some e') /\ asks (fst (nth j ext (0, 0))) (snd (nth j ext (0, 0))) e' (Ok g)
  end.
Proof.
  intros Hn HK Hl Hlt. destruct (kde_init_inv _ _ _ _ _ _ _ _ _ _ _ HK) as [bw0 (En & Ed & Hne & _)]. pose proof (weighs_kde _ _ _ _ _ _ _ _ _ _ _ HK) as Hw.
  unfold kde_points_raw, parse_edges_raw. rewrite En, Ed. pose proof (spread_says n points) as HS. destruct (edges_spread n points) as [es|x]; cbn [bind].
  2:{ left. exact HS. }
  destruct HS as [Le HS].
  assert (HA : forall i, (i < n)%nat -> asks (fst (nth i ext (0, 0))) (snd (nth i ext (0, 0))) (nth i es ENone)
     (edges_1d_raw sorter (nth i es ENone) (coords i data) (nth i ext (0, 0)) n 3 200 0 (kd_weights K) (sqrt 10) (bw i i))).
  { intros i Hi. assert (Hin : In (nth i ext (0, 0)) ext) by (apply nth_In; lia). specialize (Hlt _ Hin). destruct (nth i ext (0, 0)) as [lo hi]. cbn [fst snd] in *.
    apply edges_raw_asks; [apply coords_nonempty, Hne|exact Hlt|unfold coords; rewrite map_length; exact Hw]. }
  destruct (mapM _ (seq 0 n)) as [g|x] eqn:Em.
  - destruct (mapM_nth _ _ _ O [] Em) as [Lg HN]. rewrite seq_length in Lg, HN. split; [exact Lg|]. intros i Hi. exists (nth i es ENone). split; [apply HS, Hi|].
    specialize (HN i Hi). rewrite seq_nth in HN by exact Hi. cbn [plus] in HN. rewrite <- HN. apply HA, Hi.
  - right. destruct (mapM_err_first _ _ _ _ Em) as (i & Hi & H1 & H2). cbn [plus] in H1, H2. exists i, (nth i es ENone). split; [exact Hi|]. split; [apply HS, Hi|].
    split; [rewrite <- H1; apply HA, Hi|]. intros j Hj. destruct (H2 j Hj) as [r Hr]. exists (nth j es ENone), r. split; [apply HS; lia|]. rewrite <- Hr. apply HA. lia.
Qed.
(** The meaning is unique. *)
Lemma given_values_unique l v v' : given_values l v -> given_values l v' -> v = v'.
Proof.
  unfold given_values. revert v v'. induction l as [|e l IH]; intros v v' H H'; inversion H; inversion H'; subst; [reflexivity|]. f_equal; [destruct e; congruence|]. apply IH; assumption.
Qed.
Theorem says_unique n p i a b : says n p i a -> says n p i b -> a = b.
Proof.
  intros H H'. inversion H; subst; inversion H'; subst; try congruence; try contradiction.
  do 2 f_equal. eapply given_values_unique; eassumption.
Qed.
Lemma bins_list k lo hi l l' : length l = S k -> length l' = S k -> nth 0 l 0 = lo -> nth 0 l' 0 = lo ->
  (forall i, (i < k)%nat -> nth (S i) l 0 - nth i l 0 = (hi - lo) / INR k) -> (forall i, (i < k)%nat -> nth (S i) l' 0 - nth i l' 0 = (hi - lo) / INR k) -> l = l'.
Proof.
  intros L L' F F' H H'. apply (nth_ext _ _ 0 0); [congruence|]. intros i. induction i as [|i IH]; intros Hi; [congruence|].
  specialize (IH ltac:(lia)). specialize (H i ltac:(lia)). specialize (H' i ltac:(lia)). lra.
Qed.
Lemma equal_bins_unique k lo hi g g' : equal_bins k lo hi g -> equal_bins k lo hi g' -> g = g'.
Proof.
  intros (l & N & L & F & H) (l' & N' & L' & F' & H'). unfold numbers in *. rewrite N, N'. f_equal. apply (bins_list k lo hi); assumption.
Qed.
Theorem asks_unique lo hi e r r' : e <> ENone -> asks lo hi e r -> asks lo hi e r' -> r = r'.
Proof.
  intros Hne H H'. inversion H; subst; inversion H'; subst; try congruence; try lia.
  - f_equal. apply Nat2Z.inj in H1. subst. eapply equal_bins_unique; eassumption.
Qed.
(* ------------------------------------------------------------ consequences *)
Theorem vector_given sorter n data w b diag resc d cova neffa refl K bw ext l : 
  kde_init n data w b diag resc d cova neffa refl = Ok K -> length l <> n ->
  kde_points_raw sorter K bw ext (ErSeq (map EFlt l)) = Ok (repeat (map Some l) n).
Proof.
  intros HK Hl. destruct (kde_init_inv _ _ _ _ _ _ _ _ _ _ _ HK) as [bw0 (En & Ed & _)].
  unfold kde_points_raw, parse_edges_raw. rewrite En. cbn [edges_spread]. rewrite map_length.
  assert (Ef : e_really1d (map EFlt l) = true) by (apply e_scalar_iff; intros e He; apply in_map_iff in He; destruct He as [r [<- _]]; right; right; eexists; reflexivity).
  rewrite Ef. apply Nat.eqb_neq in Hl. rewrite Hl. cbn [negb andb bind]. rewrite map_map. cbn [e_value]. set (v := EVec (map (fun x => Some x) l)). clear -v.
  assert (G : forall k s, (s + k <= n)%nat -> mapM (fun ii => edges_1d_raw sorter (nth ii (repeat v n) ENone) (coords ii (kd_data K)) (nth ii ext (0, 0)) n 3 200 0 (kd_weights K) (sqrt 10) (bw ii ii)) (seq s k) = Ok (repeat (map (fun x => Some x) l) k)).
  { induction k as [|k IH]; intros s Hs; [reflexivity|]. cbn [seq mapM repeat]. rewrite (nth_indep _ ENone v) by (rewrite repeat_length; lia). rewrite nth_repeat. cbn [edges_1d_raw v bind]. rewrite IH by lia. reflexivity. }
  apply G. lia.
Qed.
Theorem vector_as_bins sorter n data w b diag resc d cova neffa refl K bw ext l : (1 <= n)%nat ->
  kde_init n data w b diag resc d cova neffa refl = Ok K -> length ext = n -> (forall p, In p ext -> fst p < snd p) -> length l = n ->
  exists g, kde_points_raw sorter K bw ext (ErSeq (map (fun k => EInt (Z.of_nat k)) l)) = Ok g /\ length g = n
    /\ forall i, (i < n)%nat -> equal_bins (nth i l O) (fst (nth i ext (0, 0))) (snd (nth i ext (0, 0))) (nth i g []).
Proof.
  intros Hn HK Hl Hlt Hk. pose proof (points_meaning sorter n data w b diag resc d cova neffa refl K bw ext (ErSeq (map (fun k => EInt (Z.of_nat k)) l)) Hn HK Hl Hlt) as H.
  assert (S1 : forall i, (i < n)%nat -> says n (ErSeq (map (fun k => EInt (Z.of_nat k)) l)) i (Some (EInt (Z.of_nat (nth i l O))))).
  { intros i Hi. constructor; [rewrite map_length; exact Hk|]. apply (map_nth_error (fun k => EInt (Z.of_nat k)) i l). apply nth_error_nth'. lia. }
  destruct (kde_points_raw _ _ _ _ _) as [g|x].
  - exists g. destruct H as [Lg H]. split; [reflexivity|]. split; [exact Lg|]. intros i Hi. destruct (H i Hi) as (e & He & Ha).
    pose proof (says_unique _ _ _ _ _ He (S1 i Hi)) as E. injection E as ->. inversion Ha as [|k g0 Hb E1 E2| | | | |]; subst; [|lia]. apply Nat2Z.inj in E1. subst k. exact Hb.
  - exfalso. destruct H as [[_ H]|(i & e & Hi & He & Ha & _)].
    + pose proof (says_unique _ _ _ _ _ (H O) (S1 O ltac:(lia))). discriminate.
    + pose proof (says_unique _ _ _ _ _ He (S1 i Hi)) as E. injection E as ->. inversion Ha; lia.
Qed.
Theorem vector_of_floats sorter n data w b diag resc d cova neffa refl K bw ext l : (1 <= n)%nat ->
  kde_init n data w b diag resc d cova neffa refl = Ok K -> length ext = n -> (forall p, In p ext -> fst p < snd p) -> length l = n ->
  kde_points_raw sorter K bw ext (ErSeq (map EFlt l)) = Err TypeError.
Proof.
  intros Hn HK Hl Hlt Hk. pose proof (points_meaning sorter n data w b diag resc d cova neffa refl K bw ext (ErSeq (map EFlt l)) Hn HK Hl Hlt) as H.
  assert (S1 : forall i, (i < n)%nat -> says n (ErSeq (map EFlt l)) i (Some (EFlt (nth i l 0)))).
  { intros i Hi. constructor; [rewrite map_length; exact Hk|]. apply (map_nth_error EFlt i l). apply nth_error_nth'. lia. }
  destruct (kde_points_raw _ _ _ _ _) as [g|x].
  - exfalso. destruct H as [_ H]. destruct (H O ltac:(lia)) as (e & He & Ha). pose proof (says_unique _ _ _ _ _ He (S1 O ltac:(lia))) as E. injection E as ->. inversion Ha.
  - destruct H as [[_ H]|(i & e & Hi & He & Ha & _)].
    + pose proof (says_unique _ _ _ _ _ (H O) (S1 O ltac:(lia))). discriminate.
    + pose proof (says_unique _ _ _ _ _ He (S1 i Hi)) as E. injection E as ->. inversion Ha. reflexivity.
Qed.
Theorem vectors_given sorter n data w b diag resc d cova neffa refl K bw ext ls : (1 <= n)%nat ->
  kde_init n data w b diag resc d cova neffa refl = Ok K -> length ls = n ->
  kde_points_raw sorter K bw ext (ErSeq (map EVec ls)) = Ok ls.
Proof.
  intros Hn HK Hl. destruct (kde_init_inv _ _ _ _ _ _ _ _ _ _ _ HK) as [bw0 (En & Ed & _)].
  unfold kde_points_raw, parse_edges_raw. rewrite En. cbn [edges_spread]. rewrite map_length.
  rewrite Hl, Nat.eqb_refl. cbn [negb]. rewrite andb_false_r. cbn [bind].
  assert (G : forall m s, (s + length m = n)%nat -> (forall i, (i < length m)%nat -> nth (s + i) ls [] = nth i m []) ->
    mapM (fun ii => edges_1d_raw sorter (nth ii (map EVec ls) ENone) (coords ii (kd_data K)) (nth ii ext (0, 0)) n 3 200 0 (kd_weights K) (sqrt 10) (bw ii ii)) (seq s (length m)) = Ok m).
  { induction m as [|a m IH]; intros s Hs Hm; [reflexivity|]. cbn [length seq mapM] in *. rewrite (nth_indep _ ENone (EVec [])) by (rewrite map_length; lia). rewrite map_nth.
    pose proof (Hm O ltac:(lia)) as H0. rewrite Nat.add_0_r in H0. cbn [nth] in H0. rewrite H0. cbn [edges_1d_raw bind]. rewrite IH; [reflexivity|lia|].
    intros i Hi. specialize (Hm (S i) ltac:(lia)). cbn [nth] in Hm. rewrite <- Hm. f_equal. lia. }
  specialize (G ls O ltac:(lia) ltac:(intros; reflexivity)). rewrite Hl in G. exact G.
Qed.
(** No bins for data given as a vector: the points are one number. *)
Theorem no_bins sorter data w b diag resc d cova neffa refl K bw lo hi : kde_init 1 data w b diag resc d cova neffa refl = Ok K -> lo < hi ->
  exists g, kde_points_raw sorter K bw [(lo, hi)] (ErInt 0) = Ok g /\ points_squeeze true g = GScalar (Some lo) /\ points_squeeze false g = GGrids [[Some lo]].
Proof.
  intros HK Hlt. pose proof (points_meaning sorter 1 data w b diag resc d cova neffa refl K bw [(lo, hi)] (ErInt 0) (le_n 1) HK eq_refl ltac:(intros p [<-|[]]; exact Hlt)) as H.
  destruct (kde_points_raw _ _ _ _ _) as [g|x].
  - destruct H as [Lg H]. exists g. split; [reflexivity|]. destruct (H O (le_n 1)) as (e & He & Ha). inversion He; subst. cbn [nth fst snd] in Ha.
    destruct g as [|g0 [|? ?]]; try discriminate Lg. cbn [nth] in Ha. inversion Ha as [|k g1 Hb E1 E2| | | | |]; subst; try lia. assert (k = O) by lia. subst k.
    destruct Hb as (l & -> & L & F & _). destruct l as [|x [|? ?]]; try discriminate L. cbn in F. subst x. split; reflexivity.
  - exfalso. destruct H as [[_ H]|(i & e & Hi & He & Ha & _)].
    + specialize (H O). inversion H.
    + inversion He; subst. inversion Ha; lia.
Qed.
(** The model of the checked request. *)
Theorem raw_checked sorter K bw ext (e : edge1) : (1 <= kd_ndim K)%nat -> length ext = kd_ndim K -> (match e with EdVec l => length l <> kd_ndim K | _ => True end) ->
  kde_points_raw sorter K bw ext (match e with EdAuto => ErNone | EdNum k => ErInt (Z.of_nat k) | EdVec l => ErSeq (map EFlt l) end)
  = do g <- kde_points sorter K bw ext (EdAll e) ;; Ok (map (map Some) g).
Proof.
  intros Hn Hl He. rewrite kde_points_eq by assumption. cbn [the_edges bind]. set (n := kd_ndim K) in *.
  set (v := match e with EdAuto => ENone | EdNum k => EInt (Z.of_nat k) | EdVec l => EVec (map Some l) end).
  assert (Es : edges_spread n (match e with EdAuto => ErNone | EdNum k => ErInt (Z.of_nat k) | EdVec l => ErSeq (map EFlt l) end) = Ok (repeat v n)).
  { destruct e as [|k|l]; try reflexivity. cbn [edges_spread]. rewrite map_length.
    assert (Ef : e_really1d (map EFlt l) = true) by (apply e_scalar_iff; intros e He'; apply in_map_iff in He'; destruct He' as [r [<- _]]; right; right; eexists; reflexivity).
    rewrite Ef. apply Nat.eqb_neq in He. rewrite He. cbn [negb andb]. rewrite map_map. reflexivity. }
  unfold kde_points_raw, parse_edges_raw. fold n. rewrite Es. cbn [bind].
  assert (G : forall k s, (s + k <= n)%nat -> mapM (fun ii => edges_1d_raw sorter (nth ii (repeat v n) ENone) (coords ii (kd_data K)) (nth ii ext (0, 0)) n 3 200 0 (kd_weights K) (sqrt 10) (bw ii ii)) (seq s k)
    = do g <- mapM (fun ii => get_edges_1d sorter (nth ii (repeat e n) EdAuto) (coords ii (kd_data K)) (nth ii ext (0, 0)) n 3 200 0 (kd_weights K) (sqrt 10) (bw ii ii)) (seq s k) ;; Ok (map (map Some) g)).
  { induction k as [|k IH]; intros s Hs; [reflexivity|]. cbn [seq mapM]. rewrite (nth_indep _ ENone v), (nth_indep _ EdAuto e) by (rewrite repeat_length; lia). rewrite !nth_repeat.
    rewrite IH by lia. assert (E1 : edges_1d_raw sorter v (coords s (kd_data K)) (nth s ext (0, 0)) n 3 200 0 (kd_weights K) (sqrt 10) (bw s s)
      = do g <- get_edges_1d sorter e (coords s (kd_data K)) (nth s ext (0, 0)) n 3 200 0 (kd_weights K) (sqrt 10) (bw s s) ;; Ok (map Some g)).
    { unfold v. destruct e as [|j|l]; cbn [edges_1d_raw get_edges_1d]; [| |reflexivity];
        destruct (guess_edges _ _ _ _ _ _ _ _ _) as [[m b]|]; try reflexivity; cbn [bind fst snd].
      - destruct (Z.ltb_spec (Z.of_nat m + 1) 0); [lia|]. replace (Z.to_nat (Z.of_nat m + 1)) with (m + 1)%nat by lia. reflexivity.
      - destruct (Z.ltb_spec (Z.of_nat j + 1) 0); [lia|]. replace (Z.to_nat (Z.of_nat j + 1)) with (j + 1)%nat by lia. reflexivity. }
    rewrite E1. destruct (get_edges_1d _ _ _ _ _ _ _ _ _ _ _) as [g|]; [|reflexivity]. cbn [bind]. destruct (mapM _ (seq (S s) k)); reflexivity. }
  apply G. lia.
Qed.
Theorem vector_refuted : exists K ext l, (forall sorter bw, exists g, kde_points_raw sorter K bw ext (ErSeq (map (fun k => EInt (Z.of_nat k)) l)) = Ok g /\ g <> repeat (map (fun k => Some (INR k)) l) 1)
  /\ (exists data, kde_init 1 data WNone (BwAtom (BNum 1)) false None Box (Some ident) None None = Ok K) /\ length ext = 1%nat /\ (forall p, In p ext -> fst p < snd p).
Proof.
  assert (H : exists K, kde_init 1 [pt1 0] WNone (BwAtom (BNum 1)) false None Box (Some ident) None None = Ok K) by (eexists; reflexivity). destruct H as [K HK].
  exists K, [(-1, 1)], [5%nat]. assert (Hp : forall p : R * R, In p [(-1, 1)] -> fst p < snd p) by (intros p [<-|[]]; cbn; lra). split.
  - intros sorter bw. destruct (vector_as_bins sorter 1 [pt1 0] WNone (BwAtom (BNum 1)) false None Box (Some ident) None None K bw [(-1, 1)] [5%nat] (le_n 1) HK eq_refl Hp eq_refl) as (g & E & L & B).
    exists g. split; [exact E|]. intros ->. destruct (B O (le_n 1)) as (l & N & Ll & _). cbn in N. unfold numbers in N. apply (f_equal (@length _)) in N. rewrite map_length, Ll in N. cbn in N. lia.
  - split; [exists [pt1 0]; exact HK|]. split; [reflexivity|exact Hp].
Qed.

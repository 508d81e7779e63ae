(** Extrema and points of a KDE in other units (C143). *)
From Coq Require Import ZArith Permutation FunctionalExtensionality.
From Verif Require Import Base ModelLinAlg ModelKernels ModelKDE ModelExtrema ModelInterp ModelResample ModelUtils ModelNd ModelGrid SpecUtils SpecKDE SpecGrid SpecUnits.
From Verif Require Import ProofAffine ProofKDE ProofExtrema ProofUtils ProofUtils2 ProofUtils3 ProofUtils4 ProofGrid2 ProofPlot4 ProofReflect1 ProofText ProofAlias ProofUnits.
Open Scope R_scope.
Notation length := List.length.

Lemma at_each_length {A B} (f : nat -> A -> B) l i : length (at_each f i l) = length l.
Proof. revert i. induction l as [|a l IH]; intros i; [reflexivity|]. cbn. rewrite IH. reflexivity. Qed.
Lemma at_each_nth {A B} (f : nat -> A -> B) l i k da db : (k < length l)%nat -> nth k (at_each f i l) db = f (i + k)%nat (nth k l da).
Proof.
  revert i k. induction l as [|a l IH]; intros i k Hk; cbn [length] in Hk; [lia|]. destruct k as [|k]; cbn [at_each nth].
  - rewrite Nat.add_0_r. reflexivity.
  - rewrite IH by lia. f_equal. lia.
Qed.
Lemma coords_aff s c i data : coords i (map (aff s c) data) = map (unit_of (s i) (c i)) (coords i data).
Proof. unfold coords. rewrite !map_map. reflexivity. Qed.
Lemma unit_le s c x y : 0 < c -> x <= y -> unit_of s c x <= unit_of s c y.
Proof. intros Hc H. unfold unit_of. apply Rplus_le_compat_l, Rmult_le_compat_l; lra. Qed.
Lemma lmin_unit s c l : 0 < c -> l <> [] -> lmin (map (unit_of s c) l) = unit_of s c (lmin l).
Proof.
  intros Hc Hne. assert (Hne' : map (unit_of s c) l <> []) by (intros E; apply map_eq_nil in E; contradiction). apply Rle_antisym.
  - apply lmin_le. apply in_map, lmin_in, Hne.
  - pose proof (lmin_in _ Hne') as H. apply in_map_iff in H. destruct H as [x [<- Hx]]. apply unit_le; [exact Hc|]. apply lmin_le, Hx.
Qed.
Lemma lmax_unit s c l : 0 < c -> l <> [] -> lmax (map (unit_of s c) l) = unit_of s c (lmax l).
Proof.
  intros Hc Hne. assert (Hne' : map (unit_of s c) l <> []) by (intros E; apply map_eq_nil in E; contradiction). apply Rle_antisym.
  - pose proof (lmax_in _ Hne') as H. apply in_map_iff in H. destruct H as [x [<- Hx]]. apply unit_le; [exact Hc|]. apply lmax_ge, Hx.
  - apply lmax_ge. apply in_map, lmax_in, Hne.
Qed.
Lemma coords_nonempty i (data : list pt) : data <> [] -> coords i data <> [].
Proof. intros H E. unfold coords in E. apply map_eq_nil in E. contradiction. Qed.
Lemma sort_pair_unit s c p : 0 < c -> sort_pair (range_unit s c p) = range_unit s c (sort_pair p).
Proof.
  intros Hc. unfold sort_pair, range_unit. cbn [fst snd]. destruct p as [a b]. cbn [fst snd].
  destruct (Rle_lt_dec a b) as [H|H].
  - pose proof (unit_le s c a b Hc H). rewrite !Rmin_left, !Rmax_right by assumption. reflexivity.
  - pose proof (unit_le s c b a Hc ltac:(lra)). rewrite !Rmin_right, !Rmax_left by lra. reflexivity.
Qed.
Lemma eff_unit n M data out s c : (forall i, 0 < c i) -> data <> [] ->
  eff_extrema n (mscale c M) (map (aff s c) data) out = map (fun i => range_unit (s i) (c i) (nth i (eff_extrema n M data out) (0, 0))) (seq 0 n).
Proof.
  intros Hc Hne. unfold eff_extrema. apply map_ext_in. intros i Hi. apply in_seq in Hi.
  set (g := fun i => (lmin (coords i data) - sqrt (M i i) * out, lmax (coords i data) + sqrt (M i i) * out)).
  rewrite (nth_indep _ (0, 0) (g O)) by (rewrite map_length, seq_length; lia). rewrite map_nth, seq_nth by lia. cbn [plus]. unfold g.
  rewrite coords_aff, lmin_unit, lmax_unit by (try apply coords_nonempty; auto). unfold mscale, range_unit, unit_of. cbn [fst snd].
  rewrite sqrt_mult_alt by (apply Rmult_le_pos; left; apply Hc). rewrite sqrt_square by (left; apply Hc). f_equal; ring.
Qed.
Lemma refl_extrema_aff s c r i k : (k < length r)%nat ->
  nth k (refl_extrema (aff_refl s c i r)) XNone = match nth k (refl_extrema r) XNone with
    | XPair lo hi => XPair (option_map (unit_of (s (i + k)%nat) (c (i + k)%nat)) lo) (option_map (unit_of (s (i + k)%nat) (c (i + k)%nat)) hi)
    | e => e end.
Proof.
  revert i k. induction r as [|o r IH]; intros i k Hk; cbn [length] in Hk; [lia|]. destruct k as [|k].
  - rewrite Nat.add_0_r. destruct o as [b|]; reflexivity.
  - cbn [aff_refl]. unfold refl_extrema. cbn [map nth]. fold (refl_extrema (aff_refl s c (S i) r)). fold (refl_extrema r). rewrite IH by lia.
    replace (S i + k)%nat with (i + S k)%nat by lia. reflexivity.
Qed.
Lemma aff_refl_len s c r i : length (aff_refl s c i r) = length r.
Proof. revert i. induction r as [|o r IH]; intros i; [reflexivity|]. cbn. rewrite IH. reflexivity. Qed.
Lemma aff_refl_some s c r i : (exists b, In (Some b) r) -> exists b, In (Some b) (aff_refl s c i r).
Proof.
  revert i. induction r as [|o r IH]; intros i [b Hb]; [destruct Hb|]. destruct Hb as [->|Hb].
  - eexists. left. reflexivity.
  - destruct (IH (S i) (ex_intro _ b Hb)) as [b' H']. exists b'. right. exact H'.
Qed.
Lemma refl_entries r e : In e (refl_extrema r) -> e = XNone \/ exists lo hi, e = XPair lo hi.
Proof. unfold refl_extrema. intros H. apply in_map_iff in H. destruct H as [[b|] [<- _]]; [right; eexists; eexists; reflexivity|left; reflexivity]. Qed.
Lemma refl_some r b : In (Some b) r -> exists lo hi, In (XPair lo hi) (refl_extrema r).
Proof. intros H. exists (fst b), (snd b). unfold refl_extrema. apply in_map_iff. exists (Some b). split; [reflexivity|exact H]. Qed.
Lemma parse_unit n dext dext' s c refl : length dext = n -> length dext' = n ->
  (forall i, (i < n)%nat -> nth i dext' (0, 0) = range_unit (s i) (c i) (nth i dext (0, 0))) -> some_boundary n refl ->
  parse_extrema dext' (option_map refl_extrema (option_map (aff_refl s c 0) refl))
  = do e <- parse_extrema dext (option_map refl_extrema refl) ;; Ok (ranges_unit s c e).
Proof.
  intros Hd Hd' Hn Hr. destruct refl as [r|].
  - destruct Hr as [Hl [b Hb]]. cbn [option_map]. 
    destruct (parse_per_dim dext (refl_extrema r)) as [e [E [Le Ne]]]; [unfold refl_extrema; rewrite map_length, Hd; exact Hl|apply refl_entries|eapply refl_some; exact Hb|].
    destruct (aff_refl_some s c r 0 (ex_intro _ b Hb)) as [b' Hb'].
    destruct (parse_per_dim dext' (refl_extrema (aff_refl s c 0 r))) as [e' [E' [Le' Ne']]]; [unfold refl_extrema; rewrite map_length, aff_refl_len, Hd'; exact Hl|apply refl_entries|eapply refl_some; exact Hb'|].
    rewrite E, E'. cbn [bind]. f_equal. apply (nth_ext _ _ (0, 0) (0, 0)); [unfold ranges_unit; rewrite at_each_length; lia|].
    intros i Hi. unfold ranges_unit. rewrite (at_each_nth _ e 0 i (0, 0)) by lia. cbn [plus]. rewrite Ne', Ne by lia. rewrite refl_extrema_aff by (rewrite Hl; lia). cbn [plus].
    rewrite Hn by lia. destruct (nth i (refl_extrema r) XNone) as [| |lo hi|]; try reflexivity. destruct lo, hi; reflexivity.
  - cbn [option_map parse_extrema bind]. f_equal. apply (nth_ext _ _ (0, 0) (0, 0)); [unfold ranges_unit; rewrite at_each_length; lia|].
    intros i Hi. unfold ranges_unit. rewrite (at_each_nth _ dext 0 i (0, 0)) by lia. apply Hn. lia.
Qed.
Theorem extrema_units n data w b diag resc d neffa refl s c K K' ppf : (forall i, 0 < c i) -> some_boundary n refl ->
  kde_init n data w b diag resc d None neffa refl = Ok K ->
  kde_init n (map (aff s c) data) w b diag resc d None neffa (option_map (aff_refl s c 0) refl) = Ok K' ->
  kde_extrema K' ppf None = option_map (fun r => do e <- r ;; Ok (ranges_unit s c e)) (kde_extrema K ppf None).
Proof.
  intros Hc Hr HK HK'. pose proof (kde_init_aff n data w b diag resc d neffa refl s c Hc) as HR. rewrite HK, HK' in HR. cbn [res_rel] in HR.
  destruct HR as (En & En' & Ed & Ew & Ene & Hk & Er). destruct (kde_init_inv _ _ _ _ _ _ _ _ _ _ _ HK) as [bw0 (_ & Edd & Hne & Err & _)].
  unfold kde_extrema. destruct Hk as [d0 [M [[H1 H2]|[H1 H2]]]]; rewrite H1, H2; [|reflexivity]. cbn [k_dist k_matrix]. rewrite Ene.
  destruct (ext_out d0 (kd_neff K) ppf) as [out|]; [|reflexivity]. cbn [option_map]. f_equal. rewrite Er, Err, En, En', Ed, Edd.
  apply (parse_unit n).
  - rewrite map_length. unfold eff_extrema. rewrite map_length, seq_length. reflexivity.
  - rewrite map_length. unfold eff_extrema. rewrite map_length, seq_length. reflexivity.
  - intros i Hi. rewrite eff_unit by assumption. rewrite map_map.
    set (l := eff_extrema n M data out). assert (Ll : length l = n) by (unfold l, eff_extrema; rewrite map_length, seq_length; reflexivity).
    set (g := fun x => sort_pair (range_unit (s x) (c x) (nth x l (0, 0)))).
    rewrite (nth_indep _ (0, 0) (g O)) by (rewrite map_length, seq_length; lia). rewrite map_nth, seq_nth by lia. cbn [plus]. unfold g.
    rewrite (nth_indep (map sort_pair l) (0, 0) (sort_pair (0, 0))) by (rewrite map_length; lia). rewrite map_nth. apply sort_pair_unit, Hc.
  - exact Hr.
Qed.
(* ------------------------------------------------------------ points *)
Lemma mapM_nth {A B} (f : A -> res B) l r da db : mapM f l = Ok r -> length r = length l /\ forall k, (k < length l)%nat -> f (nth k l da) = Ok (nth k r db).
Proof.
  revert r. induction l as [|a l IH]; intros r H; cbn [mapM] in H.
  - injection H as <-. split; [reflexivity|]. cbn. intros k Hk. lia.
  - destruct (f a) as [x|] eqn:Ea; [|discriminate H]. cbn [bind] in H. destruct (mapM f l) as [y|]; [|discriminate H]. cbn [bind] in H. injection H as <-.
    destruct (IH y eq_refl) as [L N]. split; [cbn; congruence|]. intros k Hk. destruct k as [|k]; [exact Ea|]. cbn [nth length] in *. apply N. lia.
Qed.
Lemma mapM_seq {B} (f g : nat -> res B) (h : nat -> B -> B) n i : (forall k, (i <= k < i + n)%nat -> g k = do r <- f k ;; Ok (h k r)) ->
  mapM g (seq i n) = do r <- mapM f (seq i n) ;; Ok (at_each h i r).
Proof.
  revert i. induction n as [|n IH]; intros i H; [reflexivity|]. cbn [seq mapM]. rewrite H by lia. destruct (f i) as [x|]; [|reflexivity]. cbn [bind].
  rewrite IH by (intros k Hk; apply H; lia). destruct (mapM f (seq (S i) n)); reflexivity.
Qed.
Definition the_edges (n : nat) (e : edges_arg) : res (list edge1) :=
  match e with EdAll e => Ok (repeat e n) | EdEach l => if Nat.eqb (length l) n then Ok l else Err ValueError end.
Lemma kde_points_eq sorter K bw ext edges : (1 <= kd_ndim K)%nat -> length ext = kd_ndim K ->
  kde_points sorter K bw ext edges = do es <- the_edges (kd_ndim K) edges ;;
    mapM (fun ii => get_edges_1d sorter (nth ii es EdAuto) (coords ii (kd_data K)) (nth ii ext (0, 0)) (kd_ndim K) 3 200 0 (kd_weights K) (sqrt 10) (bw ii ii)) (seq 0 (kd_ndim K)).
Proof.
  intros Hn Hl. unfold kde_points, parse_edges. rewrite parse_pairs; [reflexivity|intros E; rewrite E in Hl; cbn in Hl; lia|rewrite map_length, seq_length; exact Hl].
Qed.
Lemma the_edges_unit n s c e : the_edges n (request_unit n s c e) = do es <- the_edges n e ;; Ok (at_each (fun i => edge_unit (s i) (c i)) 0 es).
Proof.
  assert (G : forall e0 i, (forall x y, edge_unit x y e0 = e0) -> at_each (fun i => edge_unit (s i) (c i)) i (repeat e0 n) = repeat e0 n).
  { intros e0 i H. revert i. induction n as [|m IH]; intros i; [reflexivity|]. cbn. rewrite H, IH. reflexivity. }
  destruct e as [[|k|l]|l]; cbn [request_unit the_edges bind].
  - rewrite G by reflexivity. reflexivity.
  - rewrite G by reflexivity. reflexivity.
  - rewrite at_each_length, repeat_length, Nat.eqb_refl. reflexivity.
  - rewrite at_each_length. destruct (Nat.eqb (length l) n); reflexivity.
Qed.
Lemma sqrt10_pos : 0 < sqrt 10. Proof. apply sqrt_lt_R0. lra. Qed.
Lemma weighs_kde n data w b diag resc d cova neffa refl K : kde_init n data w b diag resc d cova neffa refl = Ok K -> weighs (length data) (kd_weights K).
Proof.
  intros HK. destruct (kde_init_inv _ _ _ _ _ _ _ _ _ _ _ HK) as [bw0 [En [Ed [Hne [Er [Ew _]]]]]]. pose proof (check_weights_pos _ _ _ Ew) as Hw.
  unfold weighs. destruct (kd_weights K); [exact Hw|exact I].
Qed.
Theorem points_units sorter n data w b diag resc d neffa refl s c K K' bw ext edges : (1 <= n)%nat -> sorts sorter -> by_comparison sorter -> (forall i, 0 < c i) ->
  kde_init n data w b diag resc d None neffa refl = Ok K ->
  kde_init n (map (aff s c) data) w b diag resc d None neffa (option_map (aff_refl s c 0) refl) = Ok K' ->
  length ext = n -> (forall p, In p ext -> fst p < snd p) ->
  kde_points sorter K' (fun i j => c i * bw i j) (ranges_unit s c ext) (request_unit n s c edges)
  = do g <- kde_points sorter K bw ext edges ;; Ok (grid_unit s c g).
Proof.
  intros Hn Hs Hb Hc HK HK' Hl Hlt. pose proof (kde_init_aff n data w b diag resc d neffa refl s c Hc) as HR. rewrite HK, HK' in HR. cbn [res_rel] in HR.
  destruct HR as (En & En' & Ed & Ew & _). destruct (kde_init_inv _ _ _ _ _ _ _ _ _ _ _ HK) as [bw0 (_ & Edd & Hne & _)].
  pose proof (weighs_kde _ _ _ _ _ _ _ _ _ _ _ HK) as Hw.
  rewrite !kde_points_eq by (try (rewrite ?En, ?En'; exact Hn); unfold ranges_unit; rewrite ?at_each_length; congruence).
  rewrite En, En', the_edges_unit. destruct (the_edges n edges) as [es|] eqn:Ee; [|reflexivity]. cbn [bind].
  assert (Le : length es = n).
  { destruct edges as [e|l]; cbn [the_edges] in Ee; [injection Ee as <-; apply repeat_length|]. destruct (Nat.eqb_spec (length l) n); [injection Ee as <-; assumption|discriminate]. }
  rewrite Ed, Edd, Ew. unfold grid_unit. apply mapM_seq. intros k Hk. rewrite coords_aff.
  rewrite (at_each_nth _ es 0 k EdAuto) by lia. cbn [plus]. unfold ranges_unit. rewrite (at_each_nth _ ext 0 k (0, 0)) by lia. cbn [plus].
  assert (Hin : In (nth k ext (0, 0)) ext) by (apply nth_In; lia). specialize (Hlt _ Hin). destruct (nth k ext (0, 0)) as [lo hi]. unfold range_unit. cbn [fst snd] in *.
  apply edges_unit; auto.
  - apply coords_nonempty, Hne.
  - apply sqrt10_pos.
  - unfold coords. rewrite map_length. exact Hw.
Qed.
(** Moving the data moves the grid, whatever the bandwidth. *)
Theorem points_moved sorter n data w b diag resc d neffa refl s K K' bw ext edges ppf : (1 <= n)%nat -> sorts sorter -> by_comparison sorter -> some_boundary n refl ->
  kde_init n data w b diag resc d None neffa refl = Ok K ->
  kde_init n (map (aff s (fun _ => 1)) data) w b diag resc d None neffa (option_map (aff_refl s (fun _ => 1) 0) refl) = Ok K' ->
  kde_extrema K ppf None = Some (Ok ext) -> length ext = n -> (forall p, In p ext -> fst p < snd p) ->
  exists ext', kde_extrema K' ppf None = Some (Ok ext')
    /\ kde_points sorter K' bw ext' (request_unit n s (fun _ => 1) edges) = do g <- kde_points sorter K bw ext edges ;; Ok (grid_unit s (fun _ => 1) g).
Proof.
  intros Hn Hs Hb Hr HK HK' He Hl Hlt. assert (Hc : forall i : nat, 0 < (fun _ : nat => 1) i) by (intros; lra).
  exists (ranges_unit s (fun _ => 1) ext). split.
  - rewrite (extrema_units n data w b diag resc d neffa refl s (fun _ => 1) K K' ppf Hc Hr HK HK'), He. reflexivity.
  - rewrite <- (points_units sorter n data w b diag resc d neffa refl s (fun _ => 1) K K' bw ext edges Hn Hs Hb Hc HK HK' Hl Hlt).
    f_equal. extensionality i. extensionality j. ring.
Qed.
(** Large units: the bandwidth factor decides; small units: it plays no part. *)
Theorem points_many sorter n data w b diag resc d neffa refl K bw ext i : (1 <= n)%nat -> (i < n)%nat ->
  kde_init n data w b diag resc d None neffa refl = Ok K ->
  length ext = n -> fst (nth i ext (0, 0)) < snd (nth i ext (0, 0)) -> 0 < bw i i ->
  exists c0, 0 < c0 /\ forall s c K' pts', (forall j, 0 < c j) -> c0 <= c i ->
    kde_init n (map (aff s c) data) w b diag resc d None neffa (option_map (aff_refl s c 0) refl) = Ok K' ->
    kde_points sorter K' bw (ranges_unit s c ext) (EdAll EdAuto) = Ok pts' -> length (nth i pts' []) = 201%nat.
Proof.
  intros Hn Hi HK Hl Hlt Hbw. destruct (kde_init_inv _ _ _ _ _ _ _ _ _ _ _ HK) as [bw0 (En & Edd & Hne & _)].
  pose proof (weighs_kde _ _ _ _ _ _ _ _ _ _ _ HK) as Hw. assert (Hm : (0 < length data)%nat) by (destruct data; [contradiction|cbn; lia]).
  pose proof (neff_grid_ge (length data) n (kd_weights K) Hm Hw) as H1. set (ne := neff_grid (length data) n (kd_weights K)) in *.
  destruct (nth i ext (0, 0)) as [lo hi] eqn:Ex. cbn [fst snd] in Hlt. pose proof sqrt10_pos as H10. assert (Hsq : 0 < sqrt ne) by (apply sqrt_lt_R0; lra).
  set (D := (hi - lo) * sqrt 10 * sqrt ne). assert (HD : 0 < D) by (unfold D; repeat apply Rmult_lt_0_compat; lra).
  exists (bw i i * INR 200 / D). split. { apply Rmult_lt_0_compat; [apply Rmult_lt_0_compat; [exact Hbw|apply lt_0_INR; lia]|apply Rinv_0_lt_compat, HD]. }
  intros s c K' pts' Hc Hci HK' HP. pose proof (kde_init_aff n data w b diag resc d neffa refl s c Hc) as HR. rewrite HK, HK' in HR. cbn [res_rel] in HR.
  destruct HR as (_ & En' & Ed & Ew & _). rewrite kde_points_eq in HP by (try (rewrite En'; exact Hn); unfold ranges_unit; rewrite at_each_length; congruence).
  rewrite En' in HP. cbn [the_edges bind] in HP. destruct (mapM_nth _ _ _ O [] HP) as [_ HN]. rewrite seq_length in HN. specialize (HN i Hi). rewrite seq_nth in HN by exact Hi. cbn [plus] in HN.
  rewrite nth_repeat in HN. unfold ranges_unit in HN. rewrite (at_each_nth _ ext 0 i (0, 0)) in HN by lia. cbn [plus] in HN.
  rewrite Ex, Ed, Edd, Ew, coords_aff in HN. unfold range_unit in HN. cbn [fst snd] in HN. cbn [get_edges_1d] in HN.
  destruct (bins_large sorter (map (unit_of (s i) (c i)) (coords i data)) (unit_of (s i) (c i) lo) (unit_of (s i) (c i) hi) n (kd_weights K) 3 200 (sqrt 10) (bw i i)) as [b0 Eb].
  - intros E. apply map_eq_nil in E. exact (coords_nonempty i data Hne E).
  - apply unit_incr; [apply Hc|exact Hlt].
  - exact H10.
  - rewrite map_length. unfold coords. rewrite map_length. exact Hw.
  - exact Hbw.
  - rewrite map_length. unfold coords. rewrite map_length. change (neff_grid _ n (kd_weights K)) with ne. replace ((unit_of (s i) (c i) hi - unit_of (s i) (c i) lo) * sqrt 10 * sqrt ne) with (c i * D) by (unfold D, unit_of; ring).
    apply (Rmult_le_compat_r D) in Hci; [|lra]. replace (bw i i * INR 200 / D * D) with (bw i i * INR 200) in Hci by (unfold Rdiv; rewrite (Rmult_assoc (bw i i * INR 200)), Rinv_l, Rmult_1_r; [reflexivity|lra]). exact Hci.
  - rewrite Eb in HN. cbn [bind fst snd] in HN. injection HN as HN. rewrite <- HN. rewrite linspace_length. reflexivity.
Qed.
Theorem points_few sorter n data w b diag resc d neffa refl K bw ext i pts : (1 <= n)%nat -> (i < n)%nat -> sorts sorter -> by_comparison sorter ->
  kde_init n data w b diag resc d None neffa refl = Ok K ->
  length ext = n -> fst (nth i ext (0, 0)) < snd (nth i ext (0, 0)) -> 0 < bw i i ->
  kde_points sorter K (fun _ _ => 0) ext (EdAll EdAuto) = Ok pts ->
  exists c0, 0 < c0 /\ forall s c K' pts', (forall j, 0 < c j) -> c i <= c0 ->
    kde_init n (map (aff s c) data) w b diag resc d None neffa (option_map (aff_refl s c 0) refl) = Ok K' ->
    kde_points sorter K' bw (ranges_unit s c ext) (EdAll EdAuto) = Ok pts' -> nth i pts' [] = map (unit_of (s i) (c i)) (nth i pts []).
Proof.
  intros Hn Hi Hs Hb HK Hl Hlt Hbw HP0. destruct (kde_init_inv _ _ _ _ _ _ _ _ _ _ _ HK) as [bw0 (En & Edd & Hne & _)].
  pose proof (weighs_kde _ _ _ _ _ _ _ _ _ _ _ HK) as Hw. assert (Hm : (0 < length data)%nat) by (destruct data; [contradiction|cbn; lia]).
  pose proof (neff_grid_ge (length data) n (kd_weights K) Hm Hw) as H1. set (ne := neff_grid (length data) n (kd_weights K)) in *.
  destruct (nth i ext (0, 0)) as [lo hi] eqn:Ex. cbn [fst snd] in Hlt. pose proof sqrt10_pos as H10. assert (Hsq : 0 < sqrt ne) by (apply sqrt_lt_R0; lra).
  assert (HB : 0 < bw i i / sqrt ne) by (apply Rmult_lt_0_compat; [exact Hbw|apply Rinv_0_lt_compat, Hsq]).
  exists (bw i i / sqrt ne / (hi - lo)). split. { apply Rmult_lt_0_compat; [exact HB|apply Rinv_0_lt_compat; lra]. }
  intros s c K' pts' Hc Hci HK' HP. pose proof (kde_init_aff n data w b diag resc d neffa refl s c Hc) as HR. rewrite HK, HK' in HR. cbn [res_rel] in HR.
  destruct HR as (_ & En' & Ed & Ew & _). rewrite kde_points_eq in HP by (try (rewrite En'; exact Hn); unfold ranges_unit; rewrite at_each_length; congruence).
  rewrite kde_points_eq in HP0 by (try (rewrite En; exact Hn); congruence).
  rewrite En' in HP. rewrite En in HP0. cbn [the_edges bind] in HP, HP0. destruct (mapM_nth _ _ _ O [] HP) as [_ HN]. rewrite seq_length in HN. specialize (HN i Hi). rewrite seq_nth in HN by exact Hi. cbn [plus] in HN.
  destruct (mapM_nth _ _ _ O [] HP0) as [_ HN0]. rewrite seq_length in HN0. specialize (HN0 i Hi). rewrite seq_nth in HN0 by exact Hi. cbn [plus] in HN0.
  rewrite nth_repeat in HN, HN0. unfold ranges_unit in HN. rewrite (at_each_nth _ ext 0 i (0, 0)) in HN by lia. cbn [plus] in HN.
  rewrite Ex, Ed, Edd, Ew, coords_aff in HN. rewrite Ex, Edd in HN0. unfold range_unit in HN. cbn [fst snd] in HN.
  assert (HN1 : get_edges_1d sorter EdAuto (map (unit_of (s i) (c i)) (coords i data)) (unit_of (s i) (c i) lo, unit_of (s i) (c i) hi) n 3 200 0 (kd_weights K) (sqrt 10) (c i * 0) = Ok (nth i pts' [])).
  { rewrite <- HN. rewrite Rmult_0_r. cbn [get_edges_1d]. f_equal. symmetry. apply bins_small.
    - intros E. apply map_eq_nil in E. exact (coords_nonempty i data Hne E).
    - apply unit_incr; [apply Hc|exact Hlt].
    - exact H10.
    - rewrite map_length. unfold coords. rewrite map_length. exact Hw.
    - rewrite map_length. unfold coords. rewrite map_length. change (neff_grid _ n (kd_weights K)) with ne. replace (unit_of (s i) (c i) hi - unit_of (s i) (c i) lo) with (c i * (hi - lo)) by (unfold unit_of; ring).
      apply (Rmult_le_compat_r (hi - lo)) in Hci; [|lra]. replace (bw i i / sqrt ne / (hi - lo) * (hi - lo)) with (bw i i / sqrt ne) in Hci by (field; lra). exact Hci. }
  change EdAuto with (edge_unit (s i) (c i) EdAuto) in HN1 at 1. rewrite edges_unit in HN1.
  - rewrite HN0 in HN1. cbn [bind] in HN1. injection HN1 as HN1. symmetry. exact HN1.
  - exact Hs.
  - exact Hb.
  - apply Hc.
  - apply coords_nonempty, Hne.
  - exact Hlt.
  - exact H10.
  - unfold coords. rewrite map_length. exact Hw.
Qed.

(* ------------------------------------------------------------ two data *)
Lemma quartiles_01 sorter : sorts sorter -> quantiles sorter [0; 1] (Some [3 / 4; 1 / 4]) None false = Ok [1; 0].
Proof.
  intros Hs. rewrite quantiles_unweighted. rewrite quantiles_run; [|discriminate|reflexivity|intros p [<-|[<-|[]]]; lra]. cbn [map].
  assert (E : [(0, 1); (1, 1)] = sorter (combine [0; 1] [1; 1])).
  { destruct (Hs (combine [0; 1] [1; 1])) as [HP HS]. apply sort_unique; [exact HP| |exact HS|].
    - intros i j Hij Hj. cbn in Hj |- *. destruct i as [|[|i]]; destruct j as [|[|j]]; cbn; try lra; lia.
    - cbn. repeat constructor; cbn; intuition lra. }
  rewrite <- E. f_equal. unfold quantile_sorted. cbn [map length fst Nat.sub].
  assert (W : forall i, (i < 2)%nat -> vget (wquantiles [(0, 1); (1, 1)]) i = 1 / 4 + INR i / 2).
  { intros i Hi. rewrite wquantiles_nth by exact Hi. destruct i as [|[|i]]; [cbn; lra|cbn; lra|lia]. }
  rewrite !(np_interp_in _ _ 1 _ 0); try lia; try (rewrite !W by lia; cbn; lra).
  2,3: apply (wquantiles_incr [(0, 1); (1, 1)]); [discriminate|intros w [<-|[<-|[]]]; cbn; lra].
  rewrite !W by lia. cbn. f_equal; [lra|]. f_equal. lra.
Qed.
Lemma units_of_points_refuted : exists data K K' c bw ext ext', 0 < c
  /\ kde_init 1 data WNone (BwAtom (BNum 1)) false None Box None None None = Ok K
  /\ kde_init 1 (map (aff (fun _ => 0) (fun _ => c)) data) WNone (BwAtom (BNum 1)) false None Box None None None = Ok K'
  /\ set_bandwidth (kd_neff K) 1 false (BwAtom (BNum 1)) None = Ok bw /\ set_bandwidth (kd_neff K') 1 false (BwAtom (BNum 1)) None = Ok bw
  /\ (forall ppf, kde_extrema K ppf None = Some (Ok ext)) /\ (forall ppf, kde_extrema K' ppf None = Some (Ok ext'))
  /\ forall sorter, sorts sorter -> by_comparison sorter -> exists pts pts',
       kde_points sorter K bw ext (EdAll EdAuto) = Ok pts /\ kde_points sorter K' bw ext' (EdAll EdAuto) = Ok pts'
       /\ (length (nth 0 pts []) <= 26)%nat /\ length (nth 0 pts' []) = 201%nat.
Proof.
  destruct (pair_init 0 1 Box) as [C [HK EC]]. set (K := pair_kde 0 1 Box C) in *.
  assert (EC' : C O O = 1 / 2) by (rewrite EC; lra).
  set (a := sqrt (1 / 2) * (1 + num_pad)).
  assert (Ha : 0 < a <= 1).
  { unfold a, num_pad. assert (0 < sqrt (1 / 2)) by (apply sqrt_lt_R0; lra). assert (sqrt (1 / 2) <= 8 / 10).
    { rewrite <- (sqrt_square (8 / 10)) by lra. apply sqrt_le_1; lra. } split; [apply Rmult_lt_0_compat; lra|].
    apply Rle_trans with (8 / 10 * (1 + / 100000000)); [apply Rmult_le_compat_r; lra|lra]. }
  assert (HE : forall ppf, kde_extrema K ppf None = Some (Ok [(0 - a, 1 + a)])).
  { intros ppf. unfold kde_extrema, K, pair_kde. cbn [kd_kernel k_dist kd_neff kd_ndim k_matrix kd_data kd_reflect option_map ext_out finite]. unfold parse_extrema. do 2 f_equal.
    unfold eff_extrema, coords, pair_data. cbn [seq map lmin lmax fold_left]. unfold pt1. rewrite EC'. fold a. unfold sort_pair. cbn [fst snd].
    rewrite (Rmin_left 0 1), (Rmax_right 0 1) by lra. rewrite Rmin_left, Rmax_right by lra. reflexivity. }
  set (bw := fun _ _ : nat => 1).
  assert (Hset : forall ne, set_bandwidth ne 1 false (BwAtom (BNum 1)) None = Ok bw) by (intros ne; reflexivity).
  destruct (points_many isort 1 (pair_data 0 1) WNone (BwAtom (BNum 1)) false None Box None None K bw [(0 - a, 1 + a)] 0 (le_n 1) (le_n 1) HK eq_refl ltac:(cbn; lra) ltac:(unfold bw; lra)) as (c0 & Hc0 & _).
  assert (HMany : exists c0, 0 < c0 /\ forall sorter K' pts',
    kde_init 1 (map (aff (fun _ => 0) (fun _ => c0)) (pair_data 0 1)) WNone (BwAtom (BNum 1)) false None Box None None None = Ok K' ->
    kde_points sorter K' bw (ranges_unit (fun _ => 0) (fun _ => c0) [(0 - a, 1 + a)]) (EdAll EdAuto) = Ok pts' -> length (nth 0 pts' []) = 201%nat).
  { exists (INR 200). split; [apply lt_0_INR; lia|]. intros sorter K' pts' HK' HP.
    pose proof (kde_init_aff 1 (pair_data 0 1) WNone (BwAtom (BNum 1)) false None Box None None (fun _ => 0) (fun _ => INR 200) ltac:(intros; apply lt_0_INR; lia)) as HR. cbn [option_map] in HR. rewrite HK, HK' in HR. cbn [res_rel] in HR.
    destruct HR as (_ & En' & Ed & Ew & _). rewrite kde_points_eq in HP by (rewrite En'; cbn; lia). rewrite En' in HP. cbn [the_edges bind] in HP.
    destruct (mapM_nth _ _ _ O [] HP) as [_ HN]. specialize (HN O (le_n 1)). cbn [seq nth repeat ranges_unit at_each get_edges_1d] in HN. unfold range_unit in HN. cbn [fst snd] in HN.
    rewrite Ed, Ew in HN. change (kd_weights K) with (@None (list R)) in HN. change (kd_data K) with (pair_data 0 1) in HN. rewrite coords_aff in HN.
    destruct (bins_large sorter (map (unit_of 0 (INR 200)) (coords 0 (pair_data 0 1))) (unit_of 0 (INR 200) (0 - a)) (unit_of 0 (INR 200) (1 + a)) 1 None 3 200 (sqrt 10) (bw O O)) as [b0 Eb].
    - discriminate.
    - apply unit_incr; [apply lt_0_INR; lia|lra].
    - apply sqrt10_pos.
    - exact I.
    - unfold bw. lra.
    - assert (H10 : 1 <= sqrt 10) by (rewrite <- sqrt_1; apply sqrt_le_1; lra).
      assert (Hne : 1 <= sqrt (neff_grid (length (map (unit_of 0 (INR 200)) (coords 0 (pair_data 0 1)))) 1 None)).
      { rewrite <- sqrt_1. apply sqrt_le_1_alt, neff_grid_ge; [cbn; lia|exact I]. }
      unfold bw. rewrite Rmult_1_l. set (t := sqrt (neff_grid _ _ _)) in *. unfold unit_of. pose proof (lt_0_INR 200 ltac:(lia)) as HI.
      replace ((0 + INR 200 * (1 + a) - (0 + INR 200 * (0 - a))) * sqrt 10 * t) with (INR 200 * ((1 + 2 * a) * (sqrt 10 * t))) by ring.
      rewrite <- (Rmult_1_r (INR 200)) at 1. apply Rmult_le_compat_l; [lra|]. rewrite <- (Rmult_1_r 1) at 1. apply Rmult_le_compat; try lra.
      rewrite <- (Rmult_1_r 1) at 1. apply Rmult_le_compat; lra.
    - rewrite Eb in HN. cbn [bind fst snd] in HN. injection HN as HN. rewrite <- HN. rewrite linspace_length. reflexivity. }
  clear c0 Hc0. destruct HMany as (c0 & Hc0 & HMany).
  pose proof (kde_init_aff 1 (pair_data 0 1) WNone (BwAtom (BNum 1)) false None Box None None (fun _ => 0) (fun _ => c0) ltac:(intros; exact Hc0)) as HR. cbn [option_map] in HR. rewrite HK in HR.
  destruct (kde_init 1 (map (aff (fun _ => 0) (fun _ => c0)) (pair_data 0 1)) WNone (BwAtom (BNum 1)) false None Box None None None) as [K'|] eqn:HK'; [|destruct HR].
  assert (HE' : forall ppf, kde_extrema K' ppf None = Some (Ok (ranges_unit (fun _ => 0) (fun _ => c0) [(0 - a, 1 + a)]))).
  { intros ppf. rewrite (extrema_units 1 (pair_data 0 1) WNone (BwAtom (BNum 1)) false None Box None None (fun _ => 0) (fun _ => c0) K K' ppf ltac:(intros; exact Hc0) I HK HK'), HE. reflexivity. }
  exists (pair_data 0 1), K, K', c0, bw, [(0 - a, 1 + a)], (ranges_unit (fun _ => 0) (fun _ => c0) [(0 - a, 1 + a)]).
  split; [exact Hc0|]. split; [exact HK|]. split; [exact HK'|]. split; [apply Hset|]. split; [apply Hset|]. split; [exact HE|]. split; [exact HE'|].
  intros sorter Hs Hb.
  destruct (points_grid sorter 1 (map (aff (fun _ => 0) (fun _ => c0)) (pair_data 0 1)) WNone (BwAtom (BNum 1)) false None Box None None None K' bw (ranges_unit (fun _ => 0) (fun _ => c0) [(0 - a, 1 + a)]) (EdAll EdAuto) (le_n 1) HK' eq_refl) as [pts' [HP' _]].
  { intros p [<-|[]]. unfold range_unit. cbn [fst snd]. apply unit_incr; [exact Hc0|lra]. }
  { exact I. }
  destruct (guess_inv sorter [0; 1] (0 - a) (1 + a) 1 None 3 200 (sqrt 10) 1) as (x & r & q0 & q1 & Hq & Hf & Hv & E); [discriminate|lra|apply sqrt10_pos|exact I|].
  rewrite quartiles_01 in Hq by exact Hs. injection Hq as <- <-.
  assert (Ene : neff_grid (length [0; 1]) 1 None = 2). { unfold neff_grid. cbn [length]. replace (INR 2) with 2 by (cbn; lra). destruct (Rltb_spec 100 2); [lra|reflexivity]. }
  rewrite Ene in Hf.
  assert (HV : 1 / 2 <= vmin x r).
  { pose proof (vmin_in x r) as Hin. rewrite <- Hf in Hin. apply filter_In in Hin. destruct Hin as [[<-|[<-|[<-|[]]]] _].
    - unfold sturges. rewrite Ene. assert (0 < ln 2) by (rewrite <- ln_1; apply ln_increasing; lra). replace (ln 2 / ln 2 + 1) with 2 by (field; lra). lra.
    - assert (1 / 2 <= Rpower 2 (- (1 / 3))).
      { assert (E2 : Rpower 2 (Ropp 1) = 1 / 2) by (rewrite Rpower_Ropp, Rpower_1 by lra; lra). rewrite <- E2. apply Rle_Rpower; lra. } lra.
    - assert (sqrt 2 <= 2) by (rewrite <- (sqrt_square 2) at 2 by lra; apply sqrt_le_1; lra). assert (0 < sqrt 2) by (apply sqrt_lt_R0; lra).
      apply (Rmult_le_reg_r (sqrt 2)); [assumption|]. replace (1 / sqrt 2 * sqrt 2) with 1 by (field; lra). lra. }
  assert (HQ : 0 <= (1 + a - (0 - a)) / (vmin x r / sqrt 10) <= 24).
  { pose proof sqrt10_pos. assert (sqrt 10 <= 4) by (rewrite <- (sqrt_square 4) by lra; apply sqrt_le_1; lra).
    replace ((1 + a - (0 - a)) / (vmin x r / sqrt 10)) with ((1 + 2 * a) * sqrt 10 / vmin x r) by (field; lra). split.
    - apply Rmult_le_pos; [apply Rmult_le_pos; lra|left; apply Rinv_0_lt_compat; lra].
    - apply (Rmult_le_reg_r (vmin x r)); [exact Hv|]. replace ((1 + 2 * a) * sqrt 10 / vmin x r * vmin x r) with ((1 + 2 * a) * sqrt 10) by (field; lra).
      apply Rle_trans with (3 * 4); [apply Rmult_le_compat; lra|]. apply Rle_trans with (24 * (1 / 2)); [lra|]. apply Rmult_le_compat_l; lra. }
  pose proof (ceil_nat_lt _ (proj1 HQ)) as HCL.
  eexists. exists pts'. split.
  { rewrite kde_points_eq by (cbn; lia). cbn [K pair_kde kd_ndim the_edges bind seq mapM repeat nth kd_data kd_weights get_edges_1d].
    change (coords 0 (pair_data 0 1)) with [0; 1]. change (bw O O) with 1. rewrite E. cbn [bind fst snd]. reflexivity. }
  split; [exact HP'|]. split; [|apply (HMany sorter K' pts' eq_refl HP')].
  cbn [nth]. rewrite linspace_length. unfold bins_of.
  assert ((ceil_nat ((1 + a - (0 - a)) / (vmin x r / sqrt 10)) <= 24)%nat); [|lia].
  apply Nat.lt_succ_r. apply INR_lt. replace (INR 25) with 25 by (cbn; lra). lra.
Qed.

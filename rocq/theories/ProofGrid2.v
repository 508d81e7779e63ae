(** The automatic grid (C50). *)
From Coq Require Import ZArith.
From Verif Require Import Base ModelLinAlg ModelKernels ModelKDE ModelExtrema ModelInterp ModelResample ModelUtils ModelNd ModelGrid SpecUtils SpecKDE SpecGrid ProofAffine ProofKDE ProofExtrema ProofUtils ProofUtils2 ProofUtils3 ProofUtils4.
Open Scope R_scope.
Notation length := List.length.

Lemma vmin_in x l : In (vmin x l) (x :: l).
Proof. apply (vmin_spec x l). Qed.
Lemma guess_ok sorter data lo hi ndim w nmin nmax refine bw : data <> [] -> lo < hi -> 0 < refine ->
  match w with None => True | Some l => length l = length data /\ (forall v, In v l -> 0 <= v) /\ exists v, In v l /\ 0 < v end ->
  exists n bwd, guess_edges sorter data (lo, hi) ndim w nmin nmax refine bw = Ok (n, bwd) /\ 0 < bwd /\ (Nat.min nmin nmax <= n <= nmax)%nat.
Proof.
  intros Hne Hlt Hr Hw. unfold guess_edges.
  assert (Hn : exists ne, (match w with None => Ok (INR (length data)) | Some w => if Nat.eqb (length w) (length data) then Ok (lsum w * lsum w / sumsq w) else Err ValueError end) = Ok ne /\ 1 <= ne).
  { destruct w as [l|].
    - destruct Hw as [Hl [H1 [v [Hv Hp]]]]. rewrite Hl, Nat.eqb_refl. eexists. split; [reflexivity|]. destruct (neff_bounds (length data) l Hl H1 ltac:(exists v; split; [exact Hv|lra])) as [[Hb _] _]. unfold neff_of in Hb. replace (lsum l * lsum l) with (lsum l ^ 2) by ring. exact Hb.
    - eexists. split; [reflexivity|]. destruct data; [congruence|]. cbn [length]. rewrite S_INR. pose proof (pos_INR (length data)). lra. }
  destruct Hn as [ne [-> Hne1]]. cbn [bind].
  set (neff := if Rltb 100 ne then Rmax (ne / (INR ndim * INR ndim)) 100 else ne).
  assert (H1 : 1 <= neff). { unfold neff. destruct (Rltb 100 ne); [|exact Hne1]. pose proof (Rmax_r (ne / (INR ndim * INR ndim)) 100). lra. }
  assert (Hq : exists qs, quantiles sorter data (Some [3 / 4; 1 / 4]) w false = Ok qs).
  { assert (Hf : fractions [3/4; 1/4]) by (intros p [<-|[<-|[]]]; lra). destruct w as [l|].
    - destruct (quantiles_total sorter data [3/4;1/4] l Hne (proj1 Hw) Hf) as [qs [E _]]. exists qs. exact E.
    - rewrite quantiles_unweighted. destruct (quantiles_total sorter data [3/4;1/4] (map (fun _ => 1) data) Hne (map_length _ _) Hf) as [qs [E _]]. exists qs. exact E. }
  destruct Hq as [qs ->]. cbn [bind fst snd].
  set (w1 := (hi - lo) / (ln neff / ln 2 + 1)). set (w2 := 2 * _ * _). set (w3 := bw / sqrt neff).
  assert (Hw1 : 0 < w1).
  { unfold w1. apply Rmult_lt_0_compat; [lra|]. apply Rinv_0_lt_compat. assert (0 <= ln neff) by (rewrite <- ln_1; destruct H1 as [H1|<-]; [left; apply ln_increasing; lra|lra]).
    assert (0 < ln 2) by (rewrite <- ln_1; apply ln_increasing; lra). assert (0 <= ln neff / ln 2); [|lra]. apply Rmult_le_pos; [assumption|]. left. apply Rinv_0_lt_compat. assumption. }
  destruct (filter (fun w0 => Rltb 0 w0) [w1; w2; w3]) as [|x r] eqn:Ef.
  { assert (Hin : In w1 (filter (fun w0 => Rltb 0 w0) [w1; w2; w3])) by (apply filter_In; split; [left; reflexivity|destruct (Rltb_spec 0 w1); [reflexivity|lra]]). rewrite Ef in Hin. destruct Hin. }
  cbn [bind]. assert (Hv : 0 < vmin x r).
  { pose proof (vmin_in x r) as Hin. rewrite <- Ef in Hin. apply filter_In in Hin. destruct Hin as [_ Hin]. destruct (Rltb_spec 0 (vmin x r)); [assumption|discriminate]. }
  assert (Hb : 0 < vmin x r / refine) by (apply Rmult_lt_0_compat; [exact Hv|apply Rinv_0_lt_compat, Hr]).
  destruct (Rleb_spec (hi - lo) 0); [lra|]. cbn [bind]. eexists. eexists. split; [reflexivity|]. split; [exact Hb|]. lia.
Qed.
Lemma mapM_ok {A B} (f : A -> res B) (P : A -> B -> Prop) l : (forall a, In a l -> exists b, f a = Ok b /\ P a b) -> exists r, mapM f l = Ok r /\ Forall2 P l r.
Proof.
  induction l as [|a l IH]; intros H; cbn [mapM].
  - exists []. split; [reflexivity|constructor].
  - destruct (H a (or_introl eq_refl)) as [b [-> Hb]]. cbn [bind]. destruct IH as [r [-> Hr]]; [intros x Hx; apply H; right; exact Hx|]. exists (b :: r). split; [reflexivity|constructor; assumption].
Qed.
Lemma parse_pairs dext ext : ext <> [] -> length ext = length dext -> parse_extrema dext (Some (map (fun p : R * R => XPair (Some (fst p)) (Some (snd p))) ext)) = Ok ext.
Proof.
  intros Hne Hl. destruct (parse_per_dim dext (map (fun p : R * R => XPair (Some (fst p)) (Some (snd p))) ext)) as [r [E [Hr Hn]]].
  - rewrite map_length. exact Hl.
  - intros e He. apply in_map_iff in He. destruct He as [p [<- _]]. right. eexists. eexists. reflexivity.
  - destruct ext as [|p ext]; [congruence|]. eexists. eexists. left. reflexivity.
  - rewrite E. f_equal. apply (nth_ext _ _ (0, 0) (0, 0)); [congruence|]. intros i Hi. rewrite Hn by lia.
    rewrite (nth_indep _ XNone ((fun p : R * R => XPair (Some (fst p)) (Some (snd p))) (0, 0))) by (rewrite map_length; lia).
    rewrite (map_nth (fun p : R * R => XPair (Some (fst p)) (Some (snd p)))). destruct (nth i ext (0, 0)); reflexivity.
Qed.
Lemma get_edges_ok sorter e data lo hi ndim w bw : data <> [] -> lo < hi -> edges_usable e ->
  match w with None => True | Some l => length l = length data /\ (forall v, In v l -> 0 <= v) /\ exists v, In v l /\ 0 < v end ->
  exists g, get_edges_1d sorter e data (lo, hi) ndim 3 200 0 w (sqrt 10) bw = Ok g /\ edges_meaning e lo hi g.
Proof.
  intros Hne Hlt He Hw. assert (Hr : 0 < sqrt 10) by (apply sqrt_lt_R0; lra).
  destruct (guess_ok sorter data lo hi ndim w 3 200 (sqrt 10) bw Hne Hlt Hr Hw) as [n [bwd [E [Hb Hn]]]].
  assert (HL : forall k, (1 <= k)%nat -> uniform (linspace (lo - 0 * bwd) (hi + 0 * bwd) (k + 1)) lo hi /\ incr_list (linspace (lo - 0 * bwd) (hi + 0 * bwd) (k + 1)) /\ length (linspace (lo - 0 * bwd) (hi + 0 * bwd) (k + 1)) = S k).
  { intros k Hk. replace (lo - 0 * bwd) with lo by ring. replace (hi + 0 * bwd) with hi by ring. assert (U : uniform (linspace lo hi (k + 1)) lo hi) by (apply linspace_uniform; lia). split; [exact U|]. split.
    - apply (uniform_incr _ lo hi U); [rewrite linspace_length; lia|exact Hlt].
    - rewrite linspace_length. lia. }
  destruct e as [|k|l]; unfold get_edges_1d; rewrite ?E; cbn [bind fst snd edges_meaning].
  - eexists. split; [reflexivity|]. destruct (HL n) as [A [B C]]; [lia|]. split; [exact A|]. split; [exact B|]. rewrite C. lia.
  - eexists. split; [reflexivity|]. apply HL. exact He.
  - eexists. split; reflexivity.
Qed.
Theorem points_grid sorter n data w b diag resc d cova neffa refl K bw ext edges : (1 <= n)%nat ->
  kde_init n data w b diag resc d cova neffa refl = Ok K -> length ext = n -> (forall p, In p ext -> fst p < snd p) ->
  (match edges with EdAll e => edges_usable e | EdEach l => length l = n /\ forall e, In e l -> edges_usable e end) ->
  exists pts, kde_points sorter K bw ext edges = Ok pts /\ length pts = n
  /\ forall i, (i < n)%nat -> edges_meaning (match edges with EdAll e => e | EdEach l => nth i l EdAuto end) (fst (nth i ext (0, 0))) (snd (nth i ext (0, 0))) (nth i pts []).
Proof.
  intros Hn HK Hl Hlt He. destruct (kde_init_inv _ _ _ _ _ _ _ _ _ _ _ HK) as [bw0 [En [Ed [Hne [Er [Ew _]]]]]]. pose proof (check_weights_pos _ _ _ Ew) as Hw.
  unfold kde_points, parse_edges. rewrite En, Ed. rewrite parse_pairs; [|intros E; rewrite E in Hl; cbn in Hl; lia|rewrite map_length, seq_length; exact Hl]. cbn [bind].
  assert (Hes : exists es, (match edges with EdAll e => Ok (repeat e n) | EdEach l => if Nat.eqb (length l) n then Ok l else Err ValueError end) = Ok es
    /\ forall i, (i < n)%nat -> nth i es EdAuto = (match edges with EdAll e => e | EdEach l => nth i l EdAuto end) /\ edges_usable (nth i es EdAuto)).
  { destruct edges as [e|l].
    - eexists. split; [reflexivity|]. intros i Hi. assert (E : nth i (repeat e n) EdAuto = e).
      { rewrite (nth_indep _ EdAuto e) by (rewrite repeat_length; exact Hi). apply nth_repeat. }
      rewrite E. split; [reflexivity|exact He].
    - destruct He as [Hll He]. rewrite Hll, Nat.eqb_refl. eexists. split; [reflexivity|]. intros i Hi. split; [reflexivity|]. apply He, nth_In. lia. }
  destruct Hes as [es [-> Hes]]. cbn [bind].
  destruct (mapM_ok (fun ii => get_edges_1d sorter (nth ii es EdAuto) (coords ii data) (nth ii ext (0, 0)) n 3 200 0 (kd_weights K) (sqrt 10) (bw ii ii))
    (fun i g => edges_meaning (match edges with EdAll e => e | EdEach l => nth i l EdAuto end) (fst (nth i ext (0, 0))) (snd (nth i ext (0, 0))) g) (seq 0 n)) as [r [E Hr]].
  { intros i Hi. apply in_seq in Hi. destruct (Hes i ltac:(lia)) as [E1 E2]. rewrite <- E1. destruct (nth i ext (0, 0)) as [lo hi] eqn:Ep. cbn [fst snd].
    apply get_edges_ok; try assumption.
    - unfold coords. intros E. apply map_eq_nil in E. contradiction.
    - assert (Hin : In (lo, hi) ext) by (rewrite <- Ep; apply nth_In; lia). apply (Hlt _ Hin).
    - unfold coords. rewrite map_length. destruct (kd_weights K); [exact Hw|exact I]. }
  exists r. split; [exact E|]. assert (HL : length r = n) by (clear - Hr; rewrite <- (seq_length n 0); symmetry; induction Hr; cbn; congruence). split; [exact HL|].
  intros i Hi. clear - Hr Hi HL. 
  assert (G : forall s l, Forall2 (fun i g => edges_meaning (match edges with EdAll e => e | EdEach l => nth i l EdAuto end) (fst (nth i ext (0, 0))) (snd (nth i ext (0, 0))) g) s l -> forall k, (k < length s)%nat -> edges_meaning (match edges with EdAll e => e | EdEach l => nth (nth k s 0%nat) l EdAuto end) (fst (nth (nth k s 0%nat) ext (0, 0))) (snd (nth (nth k s 0%nat) ext (0, 0))) (nth k l [])).
  { induction 1 as [|a g s l Ha _ IH]; intros k Hk; cbn [length] in Hk; [lia|]. destruct k as [|k]; [exact Ha|]. apply IH. lia. }
  specialize (G _ _ Hr i). rewrite seq_length, seq_nth in G by exact Hi. exact (G Hi).
Qed.
Theorem points_count_wrong sorter K bw ext l : ext <> [] -> length ext = kd_ndim K -> length l <> kd_ndim K -> kde_points sorter K bw ext (EdEach l) = Err ValueError.
Proof.
  intros Hne Hl Hw. unfold kde_points, parse_edges. rewrite parse_pairs; [|exact Hne|rewrite map_length, seq_length; exact Hl]. cbn [bind].
  apply Nat.eqb_neq in Hw. rewrite Hw. reflexivity.
Qed.

(** Proofs about bound_indices, minmax, quantiles. *)
From Coq Require Import Permutation.
From Verif Require Import Base ModelLinAlg ModelKernels ModelKDE ModelInterp ModelResample ModelUtils SpecUtils ProofInterp.
Open Scope R_scope.
Notation length := List.length.

(* ------------------------------------------------------------ bound_indices *)

Definition row_test (outside : bool) (lo hi : option R) (v : R) : bool :=
  if outside then orb (lo_ok outside lo v) (hi_ok outside hi v) else andb (lo_ok outside lo v) (hi_ok outside hi v).

Lemma row_test_spec outside lo hi v : row_test outside lo hi v = true <-> (if outside then row_outside lo hi v else row_inside lo hi v).
Proof.
  unfold row_test, lo_ok, hi_ok, row_outside, row_inside. destruct outside.
  - rewrite orb_true_iff. destruct lo as [a|], hi as [b|]; rewrite ?Rltb_true.
    + split; [intros [H|H]; [left|right]; eauto|]. intros [[x [E H]]|[x [E H]]]; injection E as <-; auto.
    + split; [intros [H|H]; [left; eauto|discriminate H]|]. intros [[x [E H]]|[x [E H]]]; [injection E as <-; auto|discriminate E].
    + split; [intros [H|H]; [discriminate H|right; eauto]|]. intros [[x [E H]]|[x [E H]]]; [discriminate E|injection E as <-; auto].
    + split; [intros [H|H]; discriminate H|]. intros [[x [E H]]|[x [E H]]]; discriminate E.
  - rewrite andb_true_iff. destruct lo as [a|], hi as [b|]; rewrite ?Rltb_true; split; intros [H1 H2]; split; auto.
    all: try (intros x E; first [discriminate E | injection E as <-; assumption]).
Qed.

Lemma and_list_map {A} (f g : A -> bool) l : and_list (map f l) (map g l) = map (fun x => andb (f x) (g x)) l.
Proof. unfold and_list. induction l as [|a l IH]; [reflexivity|]. cbn. f_equal. exact IH. Qed.

Lemma forallb_map' {A B} (f : B -> bool) (g : A -> B) l : forallb f (map g l) = forallb (fun x => f (g x)) l.
Proof. induction l as [|a l IH]; [reflexivity|]. cbn. rewrite IH. reflexivity. Qed.
Lemma forallb_ext' {A} (f g : A -> bool) l : (forall x, f x = g x) -> forallb f l = forallb g l.
Proof. intros H. induction l as [|a l IH]; [reflexivity|]. cbn. rewrite H, IH. reflexivity. Qed.


Lemma bound_loop_spec n data outside rows : forall ii b (f : pt -> bool), (forall r, In r rows -> length r = 2%nat) -> (ii + length rows <= n)%nat ->
  bound_loop n data outside ii rows (mkIdx b (map f data)) =
  Ok (mkIdx b (map (fun x : pt => andb (f x) (forallb (fun i => row_test outside (fst (row_dim rows i)) (snd (row_dim rows i)) (x (ii + i)%nat)) (seq 0 (length rows)))) data)).
Proof.
  induction rows as [|row rest IH]; intros ii b f Hr Hn; cbn [bound_loop].
  - cbn. do 2 f_equal. apply map_ext. intros x. rewrite andb_true_r. reflexivity.
  - pose proof (Hr row (or_introl eq_refl)) as Hl. destruct row as [|lo [|hi [|]]]; try discriminate Hl.
    cbn [length] in Hn. destruct (Nat.ltb_spec ii n); [|lia]. cbn [negb andb].
    destruct lo as [lo|]; cbn [ib_bool ib_vals]; rewrite and_list_map, IH; try (intros; apply Hr; right; assumption); try lia.
    all: do 2 f_equal; apply map_ext; intros x; cbn [length seq forallb row_dim nth fst snd]; rewrite Nat.add_0_r, <- andb_assoc; f_equal.
    all: unfold row_test; f_equal; rewrite <- seq_shift, forallb_map'; apply forallb_ext'; intros i; rewrite Nat.add_succ_r; reflexivity.
Qed.

(** C39: bounds with a (lower, upper) row for the first dimensions. *)
Theorem bound_indices_mask n data rows outside : rows <> [] -> (forall r, In r rows -> length r = 2%nat) -> (length rows <= n)%nat ->
  exists m, bound_indices n data (BdRows rows) outside = Ok (mkIdx true m) /\ length m = length data
    /\ forall j, (j < length data)%nat ->
       (nth j m false = true <-> forall i, (i < length rows)%nat ->
          let v := nth j data (fun _ => 0) i in
          if outside then row_outside (fst (row_dim rows i)) (snd (row_dim rows i)) v
          else row_inside (fst (row_dim rows i)) (snd (row_dim rows i)) v).
Proof.
  intros Hne Hr Hn. unfold bound_indices.
  assert (E : bounds_rows (BdRows rows) = Ok rows).
  { destruct rows as [|r0 rest]; [contradiction|]. unfold bounds_rows, rectangular.
    assert (H : forallb (fun s => Nat.eqb (length s) (length r0)) rest = true); [|rewrite H; reflexivity].
    apply forallb_forall. intros x Hx. rewrite (Hr x) by (right; exact Hx). rewrite (Hr r0) by (left; reflexivity). reflexivity. }
  rewrite E. cbn [bind]. rewrite bound_loop_spec by (auto; lia). eexists. split; [reflexivity|]. split; [apply map_length|].
  intros j Hj. set (g := fun x : pt => andb true _).
  rewrite (nth_indep _ false (g (fun _ => 0))) by (rewrite map_length; exact Hj). rewrite (map_nth g). unfold g. cbn [andb].
  rewrite forallb_forall. split.
  - intros H i Hi. apply row_test_spec. apply (H i). apply in_seq. lia.
  - intros H i Hi. apply in_seq in Hi. apply row_test_spec. apply H. lia.
Qed.

(** A flat pair restricts the first dimension only. *)
Lemma bound_indices_vec n data lo hi outside : bound_indices n data (BdVec [lo; hi]) outside = bound_indices n data (BdRows [[lo; hi]]) outside.
Proof. reflexivity. Qed.

(** None: an integer array. *)
Theorem bound_indices_none n data outside : bound_indices n data BdNone outside = Ok (mkIdx false (map (fun _ => negb outside) data)).
Proof. unfold bound_indices. cbn. do 2 f_equal. rewrite map_map. apply map_ext. intros x. reflexivity. Qed.

Lemma mapM_const {A B} (f : A -> res B) l v : (forall x, In x l -> f x = Ok v) -> mapM f l = Ok (repeat v (length l)).
Proof.
  induction l as [|a l IH]; intros H; [reflexivity|]. cbn. rewrite H by (left; reflexivity). cbn.
  rewrite IH by (intros; apply H; right; assumption). reflexivity.
Qed.

(** Used as an index it repeats the second point. *)
Theorem bound_indices_none_take n data idx p q rest : data = p :: q :: rest ->
  bound_indices n data BdNone false = Ok idx -> take_idx data idx = Ok (repeat q (length data)).
Proof.
  intros -> H. rewrite bound_indices_none in H. injection H as <-. unfold take_idx. cbn [ib_bool ib_vals].
  rewrite (mapM_const _ _ q); [cbn [map length]; rewrite map_length; reflexivity|].
  intros b Hb. change (In b (map (fun _ : pt => true) (p :: q :: rest))) in Hb. apply in_map_iff in Hb. destruct Hb as [x [<- _]]. reflexivity.
Qed.
Theorem bound_indices_none_single n p idx : bound_indices n [p] BdNone false = Ok idx -> take_idx [p] idx = Err IndexError.
Proof. intros H. rewrite bound_indices_none in H. injection H as <-. reflexivity. Qed.

(** Masking with a Boolean index. *)
Lemma take_mask data m : length m = length data ->
  take_idx data (mkIdx true m) = Ok (map fst (filter (fun xb : pt * bool => snd xb) (combine data m))).
Proof. reflexivity. Qed.

(** Points outside in one of two dimensions are in neither set. *)
Theorem outside_not_complement : exists data rows m m', bound_indices 2 data (BdRows rows) false = Ok (mkIdx true m)
  /\ bound_indices 2 data (BdRows rows) true = Ok (mkIdx true m')
  /\ exists j, (j < length data)%nat /\ nth j m false = false /\ nth j m' false = false.
Proof.
  exists [fun i => match i with O => 2 | _ => 1 / 2 end], [[Some 0; Some 1]; [Some 0; Some 1]]. do 2 eexists.
  split; [reflexivity|]. split; [reflexivity|]. exists O. split; [cbn; lia|]. cbn.
  assert (E1 : Rltb 2 1 = false) by (apply Rltb_false; lra). assert (E2 : Rltb 1 2 = true) by (apply Rltb_true; lra).
  assert (E3 : Rltb (1/2) 0 = false) by (apply Rltb_false; lra). assert (E4 : Rltb 1 (1/2) = false) by (apply Rltb_false; lra).
  rewrite E1, E3, E4, !andb_false_r. split; reflexivity.
Qed.

(** In one dimension only the boundary points themselves are in neither set. *)
Theorem one_dim_complement lo hi v : (forall a b, lo = Some a -> hi = Some b -> a < b) ->
  (row_inside lo hi v \/ row_outside lo hi v \/ lo = Some v \/ hi = Some v) /\ ~ (row_inside lo hi v /\ row_outside lo hi v).
Proof.
  intros Hab. unfold row_inside, row_outside. split.
  - destruct lo as [a|], hi as [b|].
    + destruct (Rtotal_order v a) as [H|[->|H]]; [right; left; left; eauto|auto|].
      destruct (Rtotal_order v b) as [H'|[->|H']]; [left; split; intros x E; injection E as <-; assumption|auto|right; left; right; eauto].
    + destruct (Rtotal_order v a) as [H|[->|H]]; [right; left; left; eauto|auto|left; split; intros x E; [injection E as <-; assumption|discriminate E]].
    + destruct (Rtotal_order v b) as [H'|[->|H']]; [left; split; intros x E; [discriminate E|injection E as <-; assumption]|auto|right; left; right; eauto].
    + left. split; intros x E; discriminate E.
  - intros [[H1 H2] [[a [E H]]|[b [E H]]]]; [specialize (H1 a E)|specialize (H2 b E)]; lra.
Qed.

(* ------------------------------------------------------------ minmax *)
Lemma vmin_spec x l : min_of (x :: l) (vmin x l).
Proof.
  revert x. induction l as [|y l IH]; intros x; cbn [vmin].
  - split; [left; reflexivity|]. intros z [<-|[]]; lra.
  - destruct (IH (Rmin x y)) as [H1 H2]. split.
    + destruct H1 as [H1|H1]; [|right; right; exact H1]. rewrite <- H1. unfold Rmin. destruct (Rle_dec x y); [left|right; left]; reflexivity.
    + intros z [<-|[<-|Hz]].
      * eapply Rle_trans; [apply H2; left; reflexivity|apply Rmin_l].
      * eapply Rle_trans; [apply H2; left; reflexivity|apply Rmin_r].
      * apply H2. right; exact Hz.
Qed.
Lemma vmax_spec x l : max_of (x :: l) (vmax x l).
Proof.
  revert x. induction l as [|y l IH]; intros x; cbn [vmax].
  - split; [left; reflexivity|]. intros z [<-|[]]; lra.
  - destruct (IH (Rmax x y)) as [H1 H2]. split.
    + destruct H1 as [H1|H1]; [|right; right; exact H1]. rewrite <- H1. unfold Rmax. destruct (Rle_dec x y); [right; left|left]; reflexivity.
    + intros z [<-|[<-|Hz]].
      * eapply Rle_trans; [apply Rmax_l|apply H2; left; reflexivity].
      * eapply Rle_trans; [apply Rmax_r|apply H2; left; reflexivity].
      * apply H2. right; exact Hz.
Qed.
Lemma min_of_unique l a b : min_of l a -> min_of l b -> a = b.
Proof. intros [H1 H2] [H3 H4]. pose proof (H2 b H3). pose proof (H4 a H1). lra. Qed.
Lemma max_of_unique l a b : max_of l a -> max_of l b -> a = b.
Proof. intros [H1 H2] [H3 H4]. pose proof (H2 b H3). pose proof (H4 a H1). lra. Qed.

(** Plain call. *)
Theorem minmax_plain data : data <> [] -> exists lo hi, minmax data false None StNone StNone None = Ok (Some (Some lo, Some hi))
  /\ min_of data lo /\ max_of data hi.
Proof.
  destruct data as [|x l]; [contradiction|]. intros _. cbn. exists (vmin x l), (vmax x l). split; [reflexivity|]. split; [apply vmin_spec|apply vmax_spec].
Qed.

(** Folding over chunks. *)
Definition accum (acc : res (option opair)) (c : list R) : res (option opair) :=
  do prev <- acc ;; minmax c false prev StNone StNone None.

Lemma min_of_app l m a b : min_of l a -> min_of m b -> min_of (l ++ m) (Rmin a b).
Proof.
  intros [H1 H2] [H3 H4]. split.
  - apply in_or_app. unfold Rmin. destruct (Rle_dec a b); auto.
  - intros x Hx. apply in_app_or in Hx. destruct Hx as [Hx|Hx].
    + eapply Rle_trans; [apply Rmin_l|auto].
    + eapply Rle_trans; [apply Rmin_r|auto].
Qed.
Lemma max_of_app l m a b : max_of l a -> max_of m b -> max_of (l ++ m) (Rmax a b).
Proof.
  intros [H1 H2] [H3 H4]. split.
  - apply in_or_app. unfold Rmax. destruct (Rle_dec a b); auto.
  - intros x Hx. apply in_app_or in Hx. destruct Hx as [Hx|Hx].
    + eapply Rle_trans; [apply (H2 x Hx)|apply Rmax_l].
    + eapply Rle_trans; [apply (H4 x Hx)|apply Rmax_r].
Qed.


Theorem minmax_accumulates chunks : exists r, fold_left accum chunks (Ok None) = Ok r /\ range_of (concat chunks) r.
Proof.
  assert (G : forall seen r, range_of seen r -> exists r', fold_left accum chunks (Ok r) = Ok r' /\ range_of (seen ++ concat chunks) r').
  { induction chunks as [|c chunks IH]; intros seen r Hr.
    - cbn. rewrite app_nil_r. eauto.
    - cbn [fold_left concat]. rewrite app_assoc. cbn [accum bind]. destruct c as [|x c].
      + cbn [minmax]. rewrite app_nil_r. apply IH, Hr.
      + cbn [minmax stretch_pair bind clip_limit]. apply IH.
        destruct seen as [|s0 seen].
        * cbn in Hr. subst r. cbn. do 2 eexists. split; [reflexivity|]. split; [apply vmin_spec|apply vmax_spec].
        * destruct Hr as [lo [hi (-> & Hlo & Hhi)]]. cbn [clip_prev fst snd]. unfold range_of.
          cbn [app]. do 2 eexists. split; [reflexivity|]. rewrite Rmin_comm, Rmax_comm.
          split; [apply (min_of_app (s0 :: seen)); [assumption|apply vmin_spec]|apply (max_of_app (s0 :: seen)); [assumption|apply vmax_spec]]. }
  apply (G [] None). reflexivity.
Qed.

(** limit *)
Theorem minmax_limit data ll lh : data <> [] -> exists lo hi, minmax data false None StNone StNone (Some (Some ll, Some lh)) = Ok (Some (Some lo, Some hi))
  /\ ll <= lo /\ hi <= lh
  /\ (forall x, In x data -> ll <= x <= lh -> lo <= x <= hi)
  /\ (lo <= hi <-> exists a b, min_of data a /\ max_of data b /\ a <= lh /\ ll <= b /\ ll <= lh).
Proof.
  destruct data as [|x l]; [contradiction|]. intros _. cbn.
  pose proof (vmin_spec x l) as [Hm1 Hm2]. pose proof (vmax_spec x l) as [HM1 HM2].
  do 2 eexists. split; [reflexivity|]. split; [apply Rmax_r|]. split; [apply Rmin_r|]. split.
  - intros y Hy Hb. specialize (Hm2 y Hy). specialize (HM2 y Hy). split; [apply Rmax_lub; lra|apply Rmin_glb; lra].
  - assert (vmin x l <= vmax x l) by (apply Hm2; exact HM1). split.
    + intros Hle. exists (vmin x l), (vmax x l). split; [split; assumption|]. split; [split; assumption|].
      unfold Rmax, Rmin in Hle. destruct (Rle_dec (vmin x l) ll), (Rle_dec (vmax x l) lh); lra.
    + intros [a [b (Ha & Hb & H1 & H2 & H3)]].
      rewrite (min_of_unique _ _ _ Ha (conj Hm1 Hm2)) in H1. rewrite (max_of_unique _ _ _ Hb (conj HM1 HM2)) in H2.
      unfold Rmax, Rmin. destruct (Rle_dec (vmin x l) ll), (Rle_dec (vmax x l) lh); lra.
Qed.

(** stretch by [s] widens about the centre to (1 + s) times the width. *)
Theorem minmax_stretch data s lo hi : min_of data lo -> max_of data hi ->
  exists a b, minmax data false None (StScalar s) StNone None = Ok (Some (Some a, Some b))
    /\ a + b = lo + hi /\ b - a = (1 + s) * (hi - lo).
Proof.
  intros Hlo Hhi. destruct data as [|x l]; [destruct Hlo as [[] _]|]. cbn.
  rewrite (min_of_unique _ _ _ (vmin_spec x l) Hlo), (max_of_unique _ _ _ (vmax_spec x l) Hhi).
  do 2 eexists. split; [reflexivity|]. split; field.
Qed.
Theorem minmax_positive data : (exists x, In x data /\ 0 < x) ->
  exists lo hi, minmax data true None StNone StNone None = Ok (Some (Some lo, Some hi))
    /\ min_of (filter (fun x => Rltb 0 x) data) lo /\ max_of (filter (fun x => Rltb 0 x) data) hi.
Proof.
  intros [x [Hin Hx]]. destruct data as [|d0 data]; [destruct Hin|]. unfold minmax.
  assert (HI : In x (filter (fun x => Rltb 0 x) (d0 :: data))) by (apply filter_In; split; [exact Hin|apply Rltb_true, Hx]).
  destruct (filter (fun x => Rltb 0 x) (d0 :: data)) as [|y l]; [destruct HI|]. cbn. exists (vmin y l), (vmax y l).
  split; [reflexivity|]. split; [apply vmin_spec|apply vmax_spec].
Qed.
Theorem minmax_no_positive data prev st ls lim : data <> [] -> (forall x, In x data -> x <= 0) -> minmax data true prev st ls lim = Err ValueError.
Proof.
  intros Hne H. destruct data as [|d0 data]; [contradiction|]. unfold minmax.
  assert (E : filter (fun x => Rltb 0 x) (d0 :: data) = []).
  { destruct (filter (fun x => Rltb 0 x) (d0 :: data)) as [|y l] eqn:E; [reflexivity|].
    assert (Hy : In y (y :: l)) by (left; reflexivity). rewrite <- E in Hy. apply filter_In in Hy. destruct Hy as [Hy1 Hy2].
    apply Rltb_true in Hy2. specialize (H y Hy1). lra. }
  rewrite E. reflexivity.
Qed.

(** The automatic grid and the units of the data (C143). *)
From Coq Require Import ZArith Permutation.
From Verif Require Import Base ModelLinAlg ModelKernels ModelKDE ModelExtrema ModelInterp ModelResample ModelUtils ModelNd ModelGrid SpecUtils SpecKDE SpecGrid SpecUnits.
From Verif Require Import ProofAffine ProofKDE ProofExtrema ProofUtils ProofUtils2 ProofUtils3 ProofUtils4 ProofGrid2.
Open Scope R_scope.
Notation length := List.length.

Lemma isort_by_comparison : by_comparison isort.
Proof.
  intros f l Hf. induction l as [|a l IH]; [reflexivity|]. cbn [map isort]. rewrite IH. generalize (isort l). intros m.
  induction m as [|b m IHm]; [reflexivity|]. cbn [map insert fst].
  destruct (Rleb_spec (fst a) (fst b)) as [H|H]; destruct (Rleb_spec (f (fst a)) (f (fst b))) as [H'|H'].
  - reflexivity.
  - exfalso. destruct H as [H|H]; [specialize (Hf _ _ H); lra|rewrite H in H'; lra].
  - exfalso. assert (fst b < fst a) by lra. specialize (Hf _ _ H0). lra.
  - cbn [map]. rewrite IHm. reflexivity.
Qed.
Lemma vget_map_unit s c l i : (i < length l)%nat -> vget (map (unit_of s c) l) i = unit_of s c (vget l i).
Proof. intros Hi. unfold vget. rewrite (nth_indep _ 0 (unit_of s c 0)) by (rewrite map_length; exact Hi). apply map_nth. Qed.
Lemma quantile_sorted_unit s c vw p : vw <> [] ->
  quantile_sorted (map (fun q => (unit_of s c (fst q), snd q)) vw) p = unit_of s c (quantile_sorted vw p).
Proof.
  intros Hne. unfold quantile_sorted.
  assert (E : wquantiles (map (fun q => (unit_of s c (fst q), snd q)) vw) = wquantiles vw) by (unfold wquantiles; rewrite map_map; reflexivity).
  rewrite E, map_length, map_map. cbn [fst].
  replace (map (fun x : R * R => unit_of s c (fst x)) vw) with (map (unit_of s c) (map fst vw)) by (rewrite map_map; reflexivity).
  assert (L : (0 < length vw)%nat) by (destruct vw; [contradiction|cbn; lia]).
  set (x := vget (wquantiles vw)). set (m := (length vw - 1)%nat). set (y := map fst vw).
  assert (Ly : length y = length vw) by (unfold y; apply map_length).
  assert (Em : m = (length vw - 1)%nat) by reflexivity. clearbody m.
  destruct (Nat.eq_dec m 0) as [E0|E0].
  - rewrite E0, !np_interp_zero. apply vget_map_unit. lia.
  - unfold np_interp. destruct (Rltb p (x O)); [apply vget_map_unit; lia|]. destruct (Rltb (x m) p); [apply vget_map_unit; lia|].
    unfold interp. assert (B : (S (interp_bin x m p) <= m)%nat) by (unfold interp_bin; lia).
    rewrite !vget_map_unit by lia. unfold unit_of, Rdiv. ring.
Qed.
Lemma unit_incr s c : 0 < c -> forall x y, x < y -> unit_of s c x < unit_of s c y.
Proof. intros Hc x y H. unfold unit_of. apply Rplus_lt_compat_l, Rmult_lt_compat_l; assumption. Qed.
Lemma combine_map_fst (f : R -> R) (l m : list R) : combine (map f l) m = map (fun p => (f (fst p), snd p)) (combine l m).
Proof. revert m. induction l as [|a l IH]; intros [|b m]; try reflexivity. cbn. rewrite IH. reflexivity. Qed.
Theorem quantiles_unit sorter s c values ps w vs : sorts sorter -> by_comparison sorter -> 0 < c ->
  quantiles sorter (map (unit_of s c) values) ps w vs = do q <- quantiles sorter values ps w vs ;; Ok (map (unit_of s c) q).
Proof.
  intros Hs Hb Hc. unfold quantiles. destruct ps as [ps|]; [|reflexivity]. rewrite map_length.
  replace (match w with Some w0 => w0 | None => map (fun _ : R => 1) (map (unit_of s c) values) end) with (match w with Some w0 => w0 | None => map (fun _ : R => 1) values end)
    by (destruct w; [reflexivity|rewrite map_map; reflexivity]).
  set (ws := match w with Some w0 => w0 | None => map (fun _ : R => 1) values end).
  destruct (negb _); [reflexivity|]. destruct (andb _ _); [reflexivity|]. destruct (Nat.ltb_spec (length ws) (length values)) as [|Hl]; [reflexivity|].
  destruct values as [|v vals]; [reflexivity|]. cbn [map]. cbn [bind]. f_equal. rewrite map_map. apply map_ext. intros p.
  assert (Hn : combine (v :: vals) ws <> []) by (destruct ws; [cbn in Hl; lia|discriminate]).
  replace (unit_of s c v :: map (unit_of s c) vals) with (map (unit_of s c) (v :: vals)) by reflexivity. rewrite combine_map_fst.
  destruct vs.
  - apply quantile_sorted_unit. exact Hn.
  - rewrite (Hb (unit_of s c)) by (apply unit_incr; exact Hc). apply quantile_sorted_unit.
    intros E. destruct (Hs (combine (v :: vals) ws)) as [Hp _]. rewrite E in Hp. apply Permutation_sym, Permutation_nil in Hp. contradiction.
Qed.

(* ------------------------------------------------------------ number of bins and width *)
Lemma filter_scale c l : 0 < c -> filter (fun w => Rltb 0 w) (map (Rmult c) l) = map (Rmult c) (filter (fun w => Rltb 0 w) l).
Proof.
  intros Hc. induction l as [|a l IH]; [reflexivity|]. cbn [map filter]. rewrite IH.
  destruct (Rltb_spec 0 a) as [H|H]; destruct (Rltb_spec 0 (c * a)) as [H'|H']; try reflexivity.
  - exfalso. apply H'. apply Rmult_lt_0_compat; assumption.
  - exfalso. apply H. apply (Rmult_lt_reg_l c); [exact Hc|]. lra.
Qed.
Lemma vmin_scale c x r : 0 < c -> vmin (c * x) (map (Rmult c) r) = c * vmin x r.
Proof.
  intros Hc. revert x. induction r as [|y r IH]; intros x; [reflexivity|]. cbn [map vmin]. rewrite <- IH. f_equal.
  unfold Rmin. destruct (Rle_dec x y) as [H|H]; destruct (Rle_dec (c * x) (c * y)) as [H'|H']; try reflexivity.
  - exfalso. apply H'. apply Rmult_le_compat_l; lra.
  - exfalso. apply H. apply (Rmult_le_reg_l c); assumption.
Qed.
(** The three widths. *)
Definition neff_grid (m : nat) (ndim : nat) (w : option (list R)) : R :=
  let ne := match w with None => INR m | Some l => lsum l * lsum l / sumsq l end in
  if Rltb 100 ne then Rmax (ne / (INR ndim * INR ndim)) 100 else ne.
Lemma neff_grid_ge m ndim w : (0 < m)%nat -> weighs m w -> 1 <= neff_grid m ndim w.
Proof.
  intros Hm Hw. unfold neff_grid. set (ne := match w with None => _ | Some l => _ end).
  assert (H1 : 1 <= ne).
  { unfold ne. destruct w as [l|].
    - destruct Hw as [Hl [H1 [v [Hv Hp]]]]. destruct (neff_bounds m l Hl H1 ltac:(exists v; split; [exact Hv|lra])) as [[Hb _] _]. unfold neff_of in Hb. replace (lsum l * lsum l) with (lsum l ^ 2) by ring. exact Hb.
    - destruct m; [lia|]. rewrite S_INR. pose proof (pos_INR m). lra. }
  destruct (Rltb 100 ne); [|exact H1]. pose proof (Rmax_r (ne / (INR ndim * INR ndim)) 100). lra.
Qed.
Definition sturges (m ndim : nat) (w : option (list R)) (span : R) : R := span / (ln (neff_grid m ndim w) / ln 2 + 1).
Lemma sturges_pos m ndim w span : (0 < m)%nat -> weighs m w -> 0 < span -> 0 < sturges m ndim w span.
Proof.
  intros Hm Hw Hs. pose proof (neff_grid_ge m ndim w Hm Hw) as H1. unfold sturges. apply Rmult_lt_0_compat; [lra|]. apply Rinv_0_lt_compat.
  assert (0 <= ln (neff_grid m ndim w)) by (rewrite <- ln_1; destruct H1 as [H1|<-]; [left; apply ln_increasing; lra|lra]).
  assert (0 < ln 2) by (rewrite <- ln_1; apply ln_increasing; lra). assert (0 <= ln (neff_grid m ndim w) / ln 2); [|lra]. apply Rmult_le_pos; [assumption|]. left. apply Rinv_0_lt_compat. assumption.
Qed.
Definition bins_of (nmin nmax : nat) (q : R) : nat := Nat.min (Nat.max (ceil_nat q) nmin) nmax.
Lemma guess_inv sorter data lo hi ndim w nmin nmax refine bw : data <> [] -> lo < hi -> 0 < refine -> weighs (length data) w ->
  exists x r q0 q1, let ne := neff_grid (length data) ndim w in
  quantiles sorter data (Some [3 / 4; 1 / 4]) w false = Ok [q0; q1]
  /\ filter (fun v => Rltb 0 v) [sturges (length data) ndim w (hi - lo); 2 * (q0 - q1) * Rpower ne (- (1 / 3)); bw / sqrt ne] = x :: r
  /\ 0 < vmin x r
  /\ guess_edges sorter data (lo, hi) ndim w nmin nmax refine bw = Ok (bins_of nmin nmax ((hi - lo) / (vmin x r / refine)), vmin x r / refine).
Proof.
  intros Hne Hlt Hr Hw. assert (Hm : (0 < length data)%nat) by (destruct data; [contradiction|cbn; lia]).
  assert (Hq : exists q0 q1, quantiles sorter data (Some [3 / 4; 1 / 4]) w false = Ok [q0; q1]).
  { assert (Hf : fractions [3/4; 1/4]) by (intros p [<-|[<-|[]]]; lra). destruct w as [l|].
    - rewrite quantiles_run by (try assumption; apply Hw). eexists. eexists. reflexivity.
    - rewrite quantiles_unweighted. rewrite quantiles_run by (try assumption; apply map_length). eexists. eexists. reflexivity. }
  destruct Hq as (q0 & q1 & Hq). set (ne := neff_grid (length data) ndim w).
  pose proof (sturges_pos (length data) ndim w (hi - lo) Hm Hw ltac:(lra)) as Hw1.
  destruct (filter (fun v => Rltb 0 v) [sturges (length data) ndim w (hi - lo); 2 * (q0 - q1) * Rpower ne (- (1 / 3)); bw / sqrt ne]) as [|x r] eqn:Ef.
  { exfalso. cbn [filter] in Ef. destruct (Rltb_spec 0 (sturges (length data) ndim w (hi - lo))); [discriminate Ef|lra]. }
  assert (Hv : 0 < vmin x r).
  { pose proof (vmin_in x r) as Hin. rewrite <- Ef in Hin. apply filter_In in Hin. destruct Hin as [_ Hin]. destruct (Rltb_spec 0 (vmin x r)); [assumption|discriminate]. }
  exists x, r, q0, q1. cbn zeta. split; [exact Hq|]. split; [exact Ef|]. split; [exact Hv|].
  unfold guess_edges.
  assert (En : (match w with None => Ok (INR (length data)) | Some w0 => if Nat.eqb (length w0) (length data) then Ok (lsum w0 * lsum w0 / sumsq w0) else Err ValueError end)
    = Ok (match w with None => INR (length data) | Some l => lsum l * lsum l / sumsq l end)).
  { destruct w as [l|]; [|reflexivity]. destruct Hw as [Hl _]. rewrite Hl, Nat.eqb_refl. reflexivity. }
  rewrite En. cbn [bind]. rewrite Hq. cbn [bind fst snd vget nth].
  change (if Rltb 100 (match w with None => INR (length data) | Some l => lsum l * lsum l / sumsq l end) then _ else _) with ne.
  change ((hi - lo) / (ln ne / ln 2 + 1)) with (sturges (length data) ndim w (hi - lo)). rewrite Ef. cbn [bind].
  destruct (Rleb_spec (hi - lo) 0); [lra|]. reflexivity.
Qed.
Lemma guess_unit sorter s c data lo hi ndim w nmin nmax refine bw : sorts sorter -> by_comparison sorter -> 0 < c ->
  data <> [] -> lo < hi -> 0 < refine -> weighs (length data) w ->
  guess_edges sorter (map (unit_of s c) data) (unit_of s c lo, unit_of s c hi) ndim w nmin nmax refine (c * bw)
  = do g <- guess_edges sorter data (lo, hi) ndim w nmin nmax refine bw ;; Ok (fst g, c * snd g).
Proof.
  intros Hs Hb Hc Hne Hlt Hr Hw.
  destruct (guess_inv sorter data lo hi ndim w nmin nmax refine bw Hne Hlt Hr Hw) as (x & r & q0 & q1 & Hq & Hf & Hv & E).
  destruct (guess_inv sorter (map (unit_of s c) data) (unit_of s c lo) (unit_of s c hi) ndim w nmin nmax refine (c * bw)) as (x' & r' & q0' & q1' & Hq' & Hf' & Hv' & E').
  - intros H. apply map_eq_nil in H. contradiction.
  - apply unit_incr; assumption.
  - exact Hr.
  - rewrite map_length. exact Hw.
  - rewrite E, E'. cbn [bind fst snd]. rewrite quantiles_unit, Hq in Hq' by assumption. cbn [bind map] in Hq'. injection Hq' as <- <-.
    rewrite map_length in Hf'.
    set (ne := neff_grid (length data) ndim w) in *.
    assert (EL : [sturges (length data) ndim w (unit_of s c hi - unit_of s c lo); 2 * (unit_of s c q0 - unit_of s c q1) * Rpower ne (- (1 / 3)); c * bw / sqrt ne]
      = map (Rmult c) [sturges (length data) ndim w (hi - lo); 2 * (q0 - q1) * Rpower ne (- (1 / 3)); bw / sqrt ne]).
    { cbn [map]. unfold sturges, unit_of, Rdiv. f_equal; [ring|]. f_equal; [ring|]. f_equal. ring. }
    rewrite EL, filter_scale, Hf in Hf' by exact Hc. cbn [map] in Hf'. injection Hf' as <- <-. rewrite vmin_scale by exact Hc.
    f_equal. f_equal; [|field; lra]. f_equal. unfold unit_of. field. lra.
Qed.
Lemma guess_unit_shift sorter s data lo hi ndim w nmin nmax refine bw : sorts sorter -> by_comparison sorter ->
  data <> [] -> lo < hi -> 0 < refine -> weighs (length data) w ->
  guess_edges sorter (map (unit_of s 1) data) (unit_of s 1 lo, unit_of s 1 hi) ndim w nmin nmax refine bw
  = guess_edges sorter data (lo, hi) ndim w nmin nmax refine bw.
Proof.
  intros. rewrite <- (Rmult_1_l bw) at 1. rewrite guess_unit by (try assumption; lra).
  destruct (guess_edges sorter data (lo, hi) ndim w nmin nmax refine bw) as [[a b]|]; [|reflexivity]. cbn. rewrite Rmult_1_l. reflexivity.
Qed.
Lemma linspace_unit s c a b n : linspace (unit_of s c a) (unit_of s c b) n = map (unit_of s c) (linspace a b n).
Proof.
  unfold linspace. rewrite map_map. apply map_ext. intros i. destruct (andb _ _); [reflexivity|]. unfold unit_of, Rdiv. ring.
Qed.
Theorem edges_unit sorter s c e data lo hi ndim nmin nmax pad w refine bw : sorts sorter -> by_comparison sorter -> 0 < c ->
  data <> [] -> lo < hi -> 0 < refine -> weighs (length data) w ->
  get_edges_1d sorter (edge_unit s c e) (map (unit_of s c) data) (unit_of s c lo, unit_of s c hi) ndim nmin nmax pad w refine (c * bw)
  = do g <- get_edges_1d sorter e data (lo, hi) ndim nmin nmax pad w refine bw ;; Ok (map (unit_of s c) g).
Proof.
  intros Hs Hb Hc Hne Hlt Hr Hw. destruct e as [|k|l]; cbn [edge_unit get_edges_1d]; [| |reflexivity].
  all: rewrite guess_unit by assumption; destruct (guess_edges sorter data (lo, hi) ndim w nmin nmax refine bw) as [[n b]|]; [|reflexivity]; cbn [bind fst snd]; f_equal; rewrite <- linspace_unit; f_equal; unfold unit_of; ring.
Qed.
Theorem edges_shift sorter s e data lo hi ndim nmin nmax pad w refine bw : sorts sorter -> by_comparison sorter ->
  data <> [] -> lo < hi -> 0 < refine -> weighs (length data) w ->
  get_edges_1d sorter (edge_unit s 1 e) (map (unit_of s 1) data) (unit_of s 1 lo, unit_of s 1 hi) ndim nmin nmax pad w refine bw
  = do g <- get_edges_1d sorter e data (lo, hi) ndim nmin nmax pad w refine bw ;; Ok (map (unit_of s 1) g).
Proof. intros. rewrite <- (Rmult_1_l bw) at 1. apply edges_unit; try assumption. lra. Qed.
(** Fixed bandwidth, large and small units. *)
Lemma ceil_nat_mono_ge q k : INR k <= q -> (k <= ceil_nat q)%nat.
Proof. intros H. apply INR_le. pose proof (pos_INR k). pose proof (ceil_nat_ge q ltac:(lra)). lra. Qed.
Theorem bins_large sorter data lo hi ndim w nmin nmax refine bw : data <> [] -> lo < hi -> 0 < refine -> weighs (length data) w -> 0 < bw ->
  bw * INR nmax <= (hi - lo) * refine * sqrt (neff_grid (length data) ndim w) ->
  exists b, guess_edges sorter data (lo, hi) ndim w nmin nmax refine bw = Ok (nmax, b).
Proof.
  intros Hne Hlt Hr Hw Hbw HL. assert (Hm : (0 < length data)%nat) by (destruct data; [contradiction|cbn; lia]).
  destruct (guess_inv sorter data lo hi ndim w nmin nmax refine bw Hne Hlt Hr Hw) as (x & r & q0 & q1 & Hq & Hf & Hv & E).
  pose proof (neff_grid_ge (length data) ndim w Hm Hw) as H1. set (ne := neff_grid (length data) ndim w) in *.
  assert (Hsq : 0 < sqrt ne) by (apply sqrt_lt_R0; lra).
  eexists. rewrite E. f_equal. f_equal. unfold bins_of.
  assert (HB : (nmax <= ceil_nat ((hi - lo) / (vmin x r / refine)))%nat); [|lia]. apply ceil_nat_mono_ge.
  assert (Hmin : vmin x r <= bw / sqrt ne).
  { apply (proj2 (vmin_spec x r)). rewrite <- Hf. apply filter_In. split; [right; right; left; reflexivity|].
    destruct (Rltb_spec 0 (bw / sqrt ne)) as [|Hn]; [reflexivity|]. exfalso. apply Hn. apply Rmult_lt_0_compat; [exact Hbw|apply Rinv_0_lt_compat, Hsq]. }
  apply (Rmult_le_reg_r (vmin x r)); [exact Hv|].
  replace ((hi - lo) / (vmin x r / refine) * vmin x r) with ((hi - lo) * refine) by (field; lra).
  apply Rle_trans with (INR nmax * (bw / sqrt ne)); [apply Rmult_le_compat_l; [apply pos_INR|exact Hmin]|].
  apply (Rmult_le_reg_r (sqrt ne)); [exact Hsq|]. replace (INR nmax * (bw / sqrt ne) * sqrt ne) with (bw * INR nmax) by (field; lra). lra.
Qed.
Theorem bins_small sorter data lo hi ndim w nmin nmax refine bw : data <> [] -> lo < hi -> 0 < refine -> weighs (length data) w ->
  hi - lo <= bw / sqrt (neff_grid (length data) ndim w) ->
  guess_edges sorter data (lo, hi) ndim w nmin nmax refine bw = guess_edges sorter data (lo, hi) ndim w nmin nmax refine 0.
Proof.
  intros Hne Hlt Hr Hw HL. assert (Hm : (0 < length data)%nat) by (destruct data; [contradiction|cbn; lia]).
  destruct (guess_inv sorter data lo hi ndim w nmin nmax refine bw Hne Hlt Hr Hw) as (x & r & q0 & q1 & Hq & Hf & Hv & E).
  destruct (guess_inv sorter data lo hi ndim w nmin nmax refine 0 Hne Hlt Hr Hw) as (x' & r' & q0' & q1' & Hq' & Hf' & Hv' & E').
  rewrite Hq in Hq'. injection Hq' as <- <-. set (ne := neff_grid (length data) ndim w) in *.
  pose proof (sturges_pos (length data) ndim w (hi - lo) Hm Hw ltac:(lra)) as Hw1.
  assert (Hle : sturges (length data) ndim w (hi - lo) <= hi - lo).
  { unfold sturges. fold ne. pose proof (neff_grid_ge (length data) ndim w Hm Hw) as H1. fold ne in H1.
    assert (0 <= ln ne) by (rewrite <- ln_1; destruct H1 as [H1|<-]; [left; apply ln_increasing; lra|lra]).
    assert (0 < ln 2) by (rewrite <- ln_1; apply ln_increasing; lra). assert (0 <= ln ne / ln 2) by (apply Rmult_le_pos; [assumption|left; apply Rinv_0_lt_compat; assumption]).
    apply (Rmult_le_reg_r (ln ne / ln 2 + 1)); [lra|]. replace ((hi - lo) / (ln ne / ln 2 + 1) * (ln ne / ln 2 + 1)) with (hi - lo) by (field; lra).
    rewrite <- (Rmult_1_r (hi - lo)) at 1. apply Rmult_le_compat_l; lra. }
  assert (EV : vmin x r = vmin x' r'); [|rewrite E, E', EV; reflexivity].
  set (a := sturges (length data) ndim w (hi - lo)) in *. set (b := 2 * (q0 - q1) * Rpower ne (- (1 / 3))) in *. set (d := bw / sqrt ne) in *.
  cbn [filter] in Hf, Hf'. replace (0 / sqrt ne) with 0 in Hf' by (unfold Rdiv; ring).
  destruct (Rltb_spec 0 a); [|lra]. destruct (Rltb_spec 0 d) as [Hd|Hd]; [|lra]. destruct (Rltb_spec 0 0); [lra|].
  destruct (Rltb 0 b); injection Hf as <- <-; injection Hf' as <- <-; cbn [vmin].
  - apply Rmin_left. pose proof (Rmin_l a b). lra.
  - apply Rmin_left. lra.
Qed.

(** Means over many samples from gridded distributions. *)
From Coquelicot Require Import Coquelicot.
From Coq Require Import ZArith Permutation.
From Verif Require Import Base ModelLinAlg ModelKernels ModelKDE ModelInterp ModelResample ModelUtils ModelNd ModelSample
  SpecUtils SpecNd SpecSample SpecGridLaw SpecGridMany ProofInterp ProofUtils ProofUtils2 ProofUtils4 ProofNested ProofNd ProofNd2 ProofNd3 ProofGrid ProofGrid2 ProofSample ProofSample2 ProofSample3 ProofSample4 ProofSample5 ProofSample6 ProofSample7 ProofGridLaw.
Open Scope R_scope.
Notation length := List.length.

(** The bin of a random number, and its law. *)
Definition bin_of (edges : list (list R)) (idx : list nat) (cs : list R) (u0 : R) : list nat :=
  unravel (bin_shape edges) (match random_bin idx cs u0 with Ok b => b | Err _ => O end).
Lemma bin_core ord mm edges ix cs : is_argsort ord -> shp mm = bin_shape edges -> nonneg_nd mm -> 0 < total mm -> data_to_cumulative ord mm = Ok (ix, cs) ->
  (forall u0, 0 <= u0 < 1 -> inb (bin_shape edges) (bin_of edges ix cs u0) /\ random_bin ix cs u0 = Ok (ravel (bin_shape edges) (bin_of edges ix cs u0)))
  /\ forall L : list nat -> R, is_RInt (fun u0 => L (bin_of edges ix cs u0)) 0 1 (asum (bin_shape edges) (fun idx => at_ mm idx / total mm * L idx)).
Proof.
  intros Ho SM Hmn HT E7. destruct (built_facts ord mm _ _ Ho Hmn HT E7) as (F1 & F2 & F3 & F4 & F5). cbv zeta in F1, F2, F3, F4, F5.
  assert (Lm : length (flatten_nd mm) = size_of_shape (bin_shape edges)) by (rewrite flatten_length, SM; reflexivity).
  assert (HB : forall u0, 0 <= u0 < 1 -> inb (bin_shape edges) (bin_of edges ix cs u0) /\ random_bin ix cs u0 = Ok (ravel (bin_shape edges) (bin_of edges ix cs u0))).
  { intros u0 Hu. destruct (built_bin ord mm _ _ Ho Hmn HT E7 u0 ltac:(lra)) as (b & Hb & Eb & _). cbv zeta in Hb. rewrite Lm in Hb. unfold bin_of. rewrite Eb.
    destruct (unravel_inb _ _ Hb) as [A B]. split; [exact A|]. rewrite B. reflexivity. }
  split; [exact HB|]. intros L.
  set (lo := fun idx => lo_of ix cs (ravel (bin_shape edges) idx)). set (hi := fun idx => hi_of ix cs (ravel (bin_shape edges) idx)).
  rewrite asum_list. apply (is_RInt_ext (fun u0 => sumf (fun idx => inside_step (lo idx) (hi idx) (L idx) u0) (all_idx (bin_shape edges)))).
  - intros u0 Hu0. rewrite Rmin_left, Rmax_right in Hu0 by lra. destruct (HB u0 ltac:(lra)) as [Hi EB].
    assert (IF : forall idx, inb (bin_shape edges) idx -> (random_bin ix cs u0 = Ok (ravel (bin_shape edges) idx) <-> lo idx < u0 <= hi idx)).
    { intros idx Hi'. apply (bin_iff (flatten_nd mm)); try assumption; [lra|]. rewrite Lm. apply ravel_lt, Hi'. }
    rewrite (sumf_one _ (bin_of edges ix cs u0)); [|apply all_idx_NoDup|apply inb_all_idx; exact Hi|].
    + apply IF in EB; [|exact Hi]. unfold inside_step. destruct (Rlt_dec (lo (bin_of edges ix cs u0)) u0); [|lra]. destruct (Rle_dec u0 (hi (bin_of edges ix cs u0))); [reflexivity|lra].
    + intros idx Hin Hne. apply inb_all_idx in Hin. unfold inside_step. destruct (Rlt_dec (lo idx) u0) as [A|A]; [|reflexivity]. destruct (Rle_dec u0 (hi idx)) as [B|B]; [|reflexivity]. exfalso.
      assert (X := proj2 (IF idx Hin) (conj A B)). rewrite EB in X. injection X as X. apply Hne. apply (f_equal (unravel (bin_shape edges))) in X. rewrite !ravel_unravel in X by assumption. symmetry. exact X.
  - apply RInt_sumf. intros idx Hin. apply inb_all_idx in Hin. destruct (lo_hi (flatten_nd mm) ix cs F1 F2 F3 F4 F5 (ravel (bin_shape edges) idx)) as (A & B & C); [rewrite Lm; apply ravel_lt, Hin|].
    assert (EW : at_ mm idx / total mm = hi idx - lo idx). { unfold hi, lo. rewrite C. rewrite <- SM in Hin |- *. rewrite flatten_nth by exact Hin. unfold total. rewrite asum_flat. reflexivity. }
    rewrite EW. apply RInt_step; assumption.
Qed.

(** The samples, from the sorted random numbers. *)
Lemma run_core ord mm G edges nsamp interp rs rand n : is_argsort ord -> shp mm = bin_shape edges -> nonneg_nd mm -> 0 < total mm -> data_to_cumulative ord mm = Ok (g_idx G, g_csum G) ->
  g_edges G = edges -> good_edges edges -> shp (g_dens G) = lens edges -> g_bins G = bin_shape edges ->
  (forall sd, g_sdens G = Some sd -> shp sd = lens edges /\ exists sm, g_smass G = Some sm /\ shp sm = bin_shape edges) ->
  trunc_int (match nsamp with Some r => r | None => total (g_mass G) end) = Z.of_nat n -> unit_draws (length edges) n rand -> (interp = true -> 0 < total (g_dens G)) ->
  exists vals sc, sg_sample G nsamp interp rs rand = Ok (vals, sc) /\ forall j d, (j < n)%nat -> (d < length edges)%nat ->
    column vals j d = draw_pos interp edges (g_dens G) d (bin_of edges (g_idx G) (g_csum G) (nth j (np_sort (map (rand 0%nat) (seq 0 n))) 0)) (rand (S d) j).
Proof.
  intros Ho SM Hmn HT E7 E1 Hg Hs E4 Hsd Hn Hr HDens. destruct (bin_core ord mm edges _ _ Ho SM Hmn HT E7) as [HB _].
  assert (Lm : length (flatten_nd mm) = size_of_shape (bin_shape edges)) by (rewrite flatten_length, SM; reflexivity).
  destruct (sample_run G edges nsamp interp rs rand n E1 Hg Hs E4 Hsd Hn) as (vals & sc & bin & R1 & R2 & R3 & _).
  { intros j Hj. destruct (sorted_draw _ _ _ j Hr Hj) as (k & Hk & Eu & Hu). rewrite Eu. destruct (HB _ Hu) as [A B]. eexists. split; [|exact B]. apply ravel_lt, A. }
  exists vals, sc. split; [exact R1|]. intros j d Hj Hd. destruct (R3 j Hj) as (Hi & Hb & Hv). rewrite (Hv d Hd). cbv zeta.
  assert (EB : bin_of edges (g_idx G) (g_csum G) (nth j (np_sort (map (rand 0%nat) (seq 0 n))) 0) = bin j) by (unfold bin_of; rewrite Hb; apply ravel_unravel, Hi).
  rewrite EB. unfold draw_pos. fold (left_of edges d (bin j)) (right_of edges d (bin j)). f_equal. f_equal. unfold pos_of. destruct interp.
  - assert (SP : (0 < size_of_shape (shp (g_dens G)))%nat) by (apply size_pos; intros k Hk; rewrite Hs in Hk; apply (good_len _ Hg) in Hk; lia).
    apply slope_used; [|exact SP|apply HDens; reflexivity]. rewrite Hs. unfold lens. rewrite map_length. apply inb_length in Hi. unfold bin_shape in Hi. rewrite map_length in Hi. exact Hi.
  - cbn [used_slope]. destruct (Req_EM_T 0 0) as [_|X]; [reflexivity|contradiction X; reflexivity].
Qed.

Lemma rsum_sorted (F : R -> R) (u0 : nat -> R) n : rsum n (fun j => F (nth j (np_sort (map u0 (seq 0 n))) 0)) = rsum n (fun j => F (u0 j)).
Proof.
  assert (A := fun l => sumf_rsum F 0 l). assert (Ll : length (np_sort (map u0 (seq 0 n))) = n) by (rewrite np_sort_length, map_length, seq_length; reflexivity).
  assert (B := A (np_sort (map u0 (seq 0 n)))). rewrite Ll in B. rewrite <- B. rewrite <- (sumf_perm F _ _ (sort_perm _)). rewrite A, map_length, seq_length. apply rsum_ext. intros j Hj.
  rewrite (nth_map _ _ _ _ 0%nat) by (rewrite seq_length; exact Hj). rewrite seq_nth by exact Hj. reflexivity.
Qed.

(** Sample_Outliers appends the samples of the light bins to the heavy ones. *)
Lemma outlier_run G edges dens m t pin pout interp rand n vals sc : 0 <= t -> g_mass G = m -> g_edges G = edges -> g_dens G = dens -> g_bins G = bin_shape edges -> shp m = bin_shape edges ->
  (match pout with Some k => Z.of_nat k | None => around (light_mass t m) end = Z.of_nat n) -> (0 < n)%nat -> sg_sample G (Some (IZR (Z.of_nat n))) interp (Some false) rand = Ok (vals, sc) ->
  exists V w, so_sample G t pin pout interp RsAbsent rand = Ok (Z.of_nat (length (heavy_bins t m) + n), V, w) /\ forall j d, column V (length (heavy_bins t m) + j) d = column vals j d.
Proof.
  intros Ht E3 E1 E2 E4 Sm Hn Hpos R1. set (heavy := heavy_bins t m). set (h := length heavy).
  set (inn := filter (fun f => Rltb 0 (vget (flatten_nd (ins_of t m)) f)) (seq 0 (length (flatten_nd (ins_of t m))))).
  assert (Eh : heavy = map (unravel (bin_shape edges)) inn) by (unfold heavy; rewrite heavy_flat by exact Ht; rewrite Sm; reflexivity).
  assert (Hinn : forall f, In f inn -> (f < size_of_shape (bin_shape edges))%nat) by (intros f Hf; apply filter_In in Hf; destruct Hf as [Hf _]; apply in_seq in Hf; rewrite flatten_length in Hf; cbn [ins_of map_nd shp] in Hf; rewrite Sm in Hf; lia).
  assert (Lh : length inn = h) by (unfold h; rewrite Eh, map_length; reflexivity).
  assert (B1 : mapM (unravel_index (bin_shape edges)) inn = Ok heavy).
  { rewrite (mapM_got []) by (intros f Hf; exists (unravel (bin_shape edges) f); unfold unravel_index; rewrite (proj2 (Nat.ltb_lt _ _) (Hinn f Hf)); reflexivity).
    f_equal. rewrite Eh. apply map_ext_in. intros f Hf. unfold unravel_index. rewrite (proj2 (Nat.ltb_lt _ _) (Hinn f Hf)). reflexivity. }
  assert (B2 : mapM (nd_get (ins_of t m)) heavy = Ok (map (at_ m) heavy)).
  { assert (V : forall idx, In idx heavy -> nd_get (ins_of t m) idx = Ok (at_ m idx)).
    { intros idx Hi. apply heavy_in in Hi. destruct Hi as [Hi Hl]. unfold nd_get. cbn [ins_of map_nd shp at_]. rewrite (proj2 (inbb_spec _ _) Hi). rewrite (proj2 (Rltb_true _ _) Hl). reflexivity. }
    rewrite (mapM_got 0) by (intros idx Hi; exists (at_ m idx); apply V, Hi). f_equal. apply map_ext_in. intros idx Hi. rewrite (V idx Hi). reflexivity. }
  unfold so_sample. rewrite E3, E1, E2, E4, light_outs, Hn. cbv zeta. fold inn. rewrite Lh, B1. cbn [bind]. rewrite B2. cbn [bind].
  replace (Z.ltb 0 (Z.of_nat n)) with true by (symmetry; apply Z.ltb_lt; lia). cbv iota. rewrite R1. cbn [bind fst]. replace (Z.of_nat h + Z.of_nat n)%Z with (Z.of_nat (h + n)) by lia.
  eexists. eexists. split; [reflexivity|]. intros j d. unfold column. cbn [at_ nth]. replace (Nat.ltb (h + j) h) with false by (symmetry; apply Nat.ltb_ge; lia). replace (h + j - h)%nat with j by lia. reflexivity.
Qed.

Lemma with_one_unit D n u0 c d j u : (forall i, (i < n)%nat -> 0 <= u0 i < 1) -> (forall k i, 0 <= c k i < 1) -> 0 <= u < 1 -> unit_draws D n (with_one u0 c d j u).
Proof. intros H1 H2 H3 k i _ Hi. unfold with_one. destruct k as [|k]; [apply H1, Hi|]. destruct (Nat.eq_dec k d); [destruct (Nat.eq_dec i j); [exact H3|apply H2]|apply H2]. Qed.
Lemma with_one_here u0 c d j u : with_one u0 c d j u (S d) j = u.
Proof. unfold with_one. destruct (Nat.eq_dec d d); [destruct (Nat.eq_dec j j); [reflexivity|contradiction]|contradiction]. Qed.
Lemma sorted_unit u0 n j : (forall i, (i < n)%nat -> 0 <= u0 i < 1) -> (j < n)%nat -> 0 <= nth j (np_sort (map u0 (seq 0 n))) 0 < 1.
Proof.
  intros H Hj. assert (I : In (nth j (np_sort (map u0 (seq 0 n))) 0) (map u0 (seq 0 n))).
  { eapply Permutation_in; [apply Permutation_sym, sort_perm|]. apply nth_In. rewrite np_sort_length, map_length, seq_length. exact Hj. }
  apply in_map_iff in I. destruct I as (k & <- & Hk). apply in_seq in Hk. apply H. lia.
Qed.

(** For any function: the mean over the positions of the sum over the samples is the sum of the means for each random number that chooses a bin. *)
Theorem grid_many ord ea edges dens mass sdens smass m : is_argsort ord -> grid_case ea edges dens mass sdens smass m -> 0 < total m ->
  exists G, Sample_Grid ord ea dens mass sdens smass = Ok G
  /\ forall (interp : bool) d h, (d < length edges)%nat -> (interp = true -> 0 < total dens) -> (forall x, continuous h x) ->
     exists (I : R -> R) (L : list nat -> R), is_RInt I 0 1 (asum (bin_shape edges) (fun idx => at_ m idx / total m * L idx))
       /\ (forall idx, inb (bin_shape edges) idx -> bin_mean (left_of edges d idx) (right_of edges d idx) (used_slope interp dens d idx) h (L idx))
       /\ forall n u0 c, (forall i, (i < n)%nat -> 0 <= u0 i < 1) -> (forall k i, 0 <= c k i < 1) ->
          exists J, (forall j, (j < n)%nat -> is_RInt (fun u => h (nth_draw G interp n d j u0 c u)) 0 1 (J j)) /\ rsum n J = rsum n (fun j => I (u0 j)).
Proof.
  intros Ho Hcase HT. assert (Hcase' := Hcase). destruct Hcase' as (Hea & Hg & Hs & Hdn & Hm & Hmn & Hsd & Hsm).
  destruct (grid_built ord (fun m => m) ea edges dens mass sdens smass m Hcase (fun a => eq_refl)) as (G & E & E1 & E2 & E3 & E4 & E5 & E6 & E7).
  exists G. split; [exact E|]. intros interp d h Hd HDens Hh. assert (SM := mass_shape _ _ _ _ Hg Hs Hm). destruct (bin_core ord m edges _ _ Ho SM Hmn HT E7) as [HB HI].
  set (L := fun idx => RInt (fun u => h (draw_pos interp edges dens d idx u)) 0 1).
  exists (fun u0 => L (bin_of edges (g_idx G) (g_csum G) u0)), L. split; [apply HI|]. split; [intros idx Hi; apply (draw_law interp edges dens d idx h Hg Hi Hd Hh)|].
  intros n u0 c Hu Hc. exists (fun j => L (bin_of edges (g_idx G) (g_csum G) (nth j (np_sort (map u0 (seq 0 n))) 0))). split.
  - intros j Hj. assert (Hi := proj1 (HB _ (sorted_unit u0 n j Hu Hj))). destruct (draw_law interp edges dens d _ h Hg Hi Hd Hh) as [H _]. cbv zeta in H. eapply is_RInt_ext; [|exact H].
    intros u Hx. rewrite Rmin_left, Rmax_right in Hx by lra. cbv beta. unfold nth_draw.
    destruct (run_core ord m G edges (Some (INR n)) interp None (with_one u0 c d j u) n Ho SM Hmn HT E7 E1 Hg) as (vals & sc & R1 & R2).
    + rewrite E2. exact Hs.
    + exact E4.
    + rewrite E5. intros sd Esd. split; [rewrite (Hsd sd Esd); exact Hs|]. destruct (E6 sd Esd) as (sm & A & B & _). exists sm. split; assumption.
    + apply trunc_wants. lra.
    + apply with_one_unit; [exact Hu|exact Hc|lra].
    + rewrite E2. exact HDens.
    + rewrite R1, (R2 j d Hj Hd), with_one_here, E2. reflexivity.
  - apply (rsum_sorted (fun x => L (bin_of edges (g_idx G) (g_csum G) x))).
Qed.

Lemma light_total t m : total (outs_of t m) = light_mass t m.
Proof. unfold total. apply light_outs. Qed.
(** The samples in light bins: bins by their share of the light mass, and within a bin a linear density. *)
Theorem light_many ord ea edges dens mass m t : is_argsort ord -> grid_case ea edges dens mass None None m -> 0 <= t -> 0 < light_mass t m ->
  exists G, Sample_Outliers ord ea dens t mass None None = Ok G
  /\ forall (interp : bool) d h, (d < length edges)%nat -> (interp = true -> 0 < total dens) -> (forall x, continuous h x) ->
     exists (I : R -> R) (L : list nat -> R), is_RInt I 0 1 (asum (bin_shape edges) (fun idx => light_share t m idx * L idx))
       /\ (forall idx, inb (bin_shape edges) idx -> bin_mean (left_of edges d idx) (right_of edges d idx) (used_slope interp dens d idx) h (L idx))
       /\ forall pin pout n u0 c, match pout with Some k => k = n | None => around (light_mass t m) = Z.of_nat n end -> (forall i, (i < n)%nat -> 0 <= u0 i < 1) -> (forall k i, 0 <= c k i < 1) ->
          exists J, (forall j, (j < n)%nat -> is_RInt (fun u => h (light_draw G t pin pout interp (length (heavy_bins t m)) d j u0 c u)) 0 1 (J j)) /\ rsum n J = rsum n (fun j => I (u0 j)).
Proof.
  intros Ho Hcase Ht HL. assert (Hcase' := Hcase). destruct Hcase' as (Hea & Hg & Hs & Hdn & Hm & Hmn & _ & _).
  destruct (grid_built ord (outs_of t) ea edges dens mass None None m Hcase (fun a => eq_refl)) as (G & E & E1 & E2 & E3 & E4 & E5 & _ & E7).
  exists G. split; [exact E|]. intros interp d h Hd HDens Hh. assert (SM := mass_shape _ _ _ _ Hg Hs Hm).
  assert (SO : shp (outs_of t m) = bin_shape edges) by exact SM. assert (NO := nonneg_outs t m Hmn). assert (TO : 0 < total (outs_of t m)) by (rewrite light_total; exact HL).
  destruct (bin_core ord (outs_of t m) edges _ _ Ho SO NO TO E7) as [HB HI].
  set (L := fun idx => RInt (fun u => h (draw_pos interp edges dens d idx u)) 0 1).
  exists (fun u0 => L (bin_of edges (g_idx G) (g_csum G) u0)), L. split.
  { eapply eq_ind; [apply HI|]. apply asum_ext. intros idx Hi. rewrite light_total. unfold light_share. cbn [outs_of map_nd at_]. destruct (Rltb_spec t (at_ m idx)), (Rlt_dec t (at_ m idx)); try reflexivity; contradiction. }
  split; [intros idx Hi; apply (draw_law interp edges dens d idx h Hg Hi Hd Hh)|].
  intros pin pout n u0 c Hn Hu Hc. exists (fun j => L (bin_of edges (g_idx G) (g_csum G) (nth j (np_sort (map u0 (seq 0 n))) 0))). split.
  - intros j Hj. assert (Hi := proj1 (HB _ (sorted_unit u0 n j Hu Hj))). destruct (draw_law interp edges dens d _ h Hg Hi Hd Hh) as [H _]. cbv zeta in H. eapply is_RInt_ext; [|exact H].
    intros u Hx. rewrite Rmin_left, Rmax_right in Hx by lra. cbv beta. unfold light_draw.
    assert (HU : unit_draws (length edges) n (with_one u0 c d j u)) by (apply with_one_unit; [exact Hu|exact Hc|lra]).
    destruct (run_core ord (outs_of t m) G edges (Some (IZR (Z.of_nat n))) interp (Some false) (with_one u0 c d j u) n Ho SO NO TO E7 E1 Hg) as (vals & sc & R1 & R2).
    + rewrite E2. exact Hs.
    + exact E4.
    + rewrite E5. intros ? C. discriminate C.
    + apply trunc_wants. rewrite <- INR_IZR_INZ. lra.
    + exact HU.
    + rewrite E2. exact HDens.
    + assert (Hn' : match pout with Some k => Z.of_nat k | None => around (light_mass t m) end = Z.of_nat n) by (destruct pout as [k|]; [subst; reflexivity|exact Hn]).
      destruct (outlier_run G edges dens m t pin pout interp (with_one u0 c d j u) n vals sc Ht E3 E1 E2 E4 SM Hn' ltac:(lia) R1) as (V & w & A & B).
      rewrite A, (B j d), (R2 j d Hj Hd), with_one_here, E2. reflexivity.
  - apply (rsum_sorted (fun x => L (bin_of edges (g_idx G) (g_csum G) x))).
Qed.

(** * Every bin above the threshold: the weighted points have the exact first moments *)
Lemma box_unique : forall box f v1 v2, (forall ab, In ab box -> fst ab < snd ab) -> is_box_integral box f v1 -> is_box_integral box f v2 -> v1 = v2.
Proof.
  induction box as [|[a b] box IH]; intros f v1 v2 Hb H1 H2; cbn in H1, H2; [congruence|]. destruct H1 as (g1 & A1 & B1), H2 as (g2 & A2 & B2).
  assert (Hab := Hb (a, b) (or_introl eq_refl)). cbn in Hab.
  assert (B3 : is_RInt g1 a b v2).
  { eapply is_RInt_ext; [|exact B2]. intros t Ht. rewrite Rmin_left, Rmax_right in Ht by lra. apply (IH (fun x => f (t :: x))); [intros ab Hi; apply Hb; right; exact Hi|apply A2; lra|apply A1; lra]. }
  rewrite <- (is_RInt_unique (V := R_CompleteNormedModule) _ _ _ _ B1). apply (is_RInt_unique (V := R_CompleteNormedModule)). exact B3.
Qed.
Lemma heavy_all t m : (forall idx, inb (shp m) idx -> t < at_ m idx) -> heavy_bins t m = all_idx (shp m) /\ light_mass t m = 0.
Proof.
  intros H. split.
  - unfold heavy_bins. assert (A : forall l, (forall x, In x l -> inb (shp m) x) -> filter (fun idx => if Rlt_dec t (at_ m idx) then true else false) l = l).
    { induction l as [|x l IH]; intros Hl; [reflexivity|]. cbn [filter]. destruct (Rlt_dec t (at_ m x)) as [_|C]; [rewrite IH; [reflexivity|intros y Hy; apply Hl; right; exact Hy]|]. contradiction C. apply H, Hl. left. reflexivity. }
    apply A. intros x Hx. apply inb_all_idx. exact Hx.
  - unfold light_mass. apply asum_zero. intros idx Hi. destruct (Rlt_dec t (at_ m idx)) as [_|C]; [reflexivity|]. contradiction C. apply H, Hi.
Qed.
Theorem all_heavy ord ea edges dens m t interp rand : is_argsort ord -> grid_case ea edges dens None None None m -> 0 <= t -> (forall idx, inb (bin_shape edges) idx -> t < at_ m idx) ->
  (forall n, unit_draws (length edges) n rand) ->
  exists G vals w N, Sample_Outliers ord ea dens t None None None = Ok G /\ so_sample G t None None interp RsAbsent rand = Ok (Z.of_nat N, vals, w) /\ N = size_of_shape (bin_shape edges) /\ length w = N
  /\ lsum w = total m
  /\ forall d, (d < length edges)%nat -> exists moment, (forall idx, inb (bin_shape edges) idx -> let box := bin_box edges idx in
         is_box_integral box (fun x => nth d x 0 * multilinear box (fun bits => at_ dens (corner idx bits)) x) (moment idx))
     /\ rsum N (fun j => nth j w 0 * column vals j d) = asum (bin_shape edges) moment.
Proof.
  intros Ho Hcase Ht Hall Hr. assert (Hc := Hcase). destruct Hc as (_ & Hg & Hs & Hdn & Hbm & Hm & _). assert (Sm := mass_shape _ _ _ _ Hg Hs Hbm).
  destruct (heavy_all t m) as [EH EL]; [intros idx Hi; apply Hall; rewrite <- Sm; exact Hi|].
  destruct (outliers_conserve ord ea edges dens None m t interp rand Ho Hcase Ht Hr) as (G & vals & w & n & E & R1 & R2 & R3 & R4 & R5 & R6 & _). rewrite EH in R1, R2, R3, R6. rewrite EL in R4.
  assert (En : n = 0%nat). { apply rabs_le_inv in R4. destruct n as [|n]; [reflexivity|]. exfalso. rewrite S_INR in R4. assert (H := pos_INR n). lra. }
  subst n. cbn [repeat] in R3. rewrite app_nil_r in R3. rewrite Nat.add_0_r, all_idx_length, Sm in R1. rewrite Sm in R3, R6.
  assert (LW : length w = size_of_shape (bin_shape edges)) by (rewrite R3, map_length, all_idx_length; reflexivity).
  exists G, vals, w, (size_of_shape (bin_shape edges)). split; [exact E|]. split; [exact R1|]. split; [reflexivity|]. split; [exact LW|]. split.
  { rewrite R3. unfold total. rewrite asum_list, Sm. reflexivity. }
  intros d Hd. exists (fun idx => at_ m idx * at_ (centroids edges dens d) idx).
  assert (Hinc : forall x, In x edges -> incr_list x) by (intros x Hx; apply Hg, Hx).
  destruct (mass_is_integral dens edges Hs) as (m' & Em & HI). { intros x Hx. split; [apply (good_ne _ Hg x Hx)|apply Hinc, Hx]. }
  cbn in Hbm. rewrite Hbm in Em. injection Em as <-. rewrite Sm in HI.
  assert (HM : forall idx, inb (bin_shape edges) idx -> let box := bin_box edges idx in
         is_box_integral box (fun x => nth d x 0 * multilinear box (fun bits => at_ dens (corner idx bits)) x) (at_ m idx * at_ (centroids edges dens d) idx)).
  { intros idx Hi box. destruct (centroid_is_center_of_mass edges dens d idx Hs Hinc Hd Hi Hdn) as (mb & mo & A & B & C). cbv zeta in A, B, C. fold box in A, B.
    assert (Eq : mb = at_ m idx). { eapply (box_unique box); [|exact A|apply HI, Hi]. apply bin_box_incr; assumption. }
    assert (P := Hall idx Hi). rewrite C by lra. rewrite Eq. replace (at_ m idx * (mo / at_ m idx)) with mo by (field; lra). exact B. }
  split; [exact HM|]. rewrite asum_list, (sumf_rsum _ []), all_idx_length. apply rsum_ext. intros j Hj. rewrite R3.
  rewrite (nth_map _ _ _ _ []) by (rewrite all_idx_length; exact Hj). f_equal.
  specialize (R6 j d ltac:(rewrite all_idx_length; exact Hj) Hd). cbv zeta in R6. destruct R6 as (_ & mb & mo & A & B & C).
  set (idx := nth j (all_idx (bin_shape edges)) []) in *. assert (Hi : inb (bin_shape edges) idx) by (apply inb_all_idx; unfold idx; apply nth_In; rewrite all_idx_length; exact Hj).
  assert (BI := bin_box_incr edges idx Hinc Hi). assert (P := Hall idx Hi).
  assert (Eq : mb = at_ m idx) by (eapply box_unique; [exact BI|exact A|apply HI, Hi]).
  assert (Eo : mo = at_ m idx * at_ (centroids edges dens d) idx) by (eapply box_unique; [exact BI|exact B|apply (HM idx Hi)]).
  rewrite C by lra. rewrite Eq, Eo. field. lra.
Qed.

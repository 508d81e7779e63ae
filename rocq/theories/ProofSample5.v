(** Theorems about Sample_Grid: choice of bins, positions within bins, scalar values. *)
From Coq Require Import ZArith Permutation.
From Verif Require Import Base ModelLinAlg ModelKernels ModelKDE ModelInterp ModelResample ModelUtils ModelNd ModelSample
  SpecUtils SpecNd SpecSample ProofInterp ProofUtils ProofUtils2 ProofUtils4 ProofNested ProofNd ProofNd2 ProofNd3 ProofGrid ProofGrid2 ProofSample ProofSample2 ProofSample3 ProofSample4.
Open Scope R_scope.
Notation length := List.length.

Lemma bin_edge edges idx d : good_edges edges -> inb (bin_shape edges) idx -> (d < length edges)%nat ->
  (S (nth d idx 0) < length (nth d edges []))%nat /\ nth (nth d idx 0%nat) (nth d edges []) 0 < nth (S (nth d idx 0%nat)) (nth d edges []) 0.
Proof.
  intros Hg Hi Hd. pose proof (inb_nth _ _ d Hi) as A. unfold bin_shape in A. rewrite map_length in A. specialize (A Hd). rewrite (nth_map _ _ _ _ []) in A by exact Hd.
  split; [lia|]. destruct Hg as [_ Hg]. apply (Hg (nth d edges []) (nth_In _ _ Hd)); lia.
Qed.

(** C52 *)
Theorem bins_by_mass ord ea edges dens mass sdens smass m :
  is_argsort ord -> grid_case ea edges dens mass sdens smass m -> 0 < total m ->
  exists G (lo hi : list nat -> R), Sample_Grid ord ea dens mass sdens smass = Ok G
  /\ (forall idx, inb (bin_shape edges) idx -> 0 <= lo idx <= hi idx /\ hi idx <= 1 /\ hi idx - lo idx = at_ m idx / total m)
  /\ (forall u, 0 < u <= 1 -> exists idx, inb (bin_shape edges) idx /\ lo idx < u <= hi idx
        /\ forall idx', inb (bin_shape edges) idx' -> lo idx' < u <= hi idx' -> idx' = idx)
  /\ forall nsamp interp rs rand n, wants nsamp m n -> unit_draws (length edges) n rand ->
     exists vals sc us, sg_sample G nsamp interp rs rand = Ok (vals, sc) /\ sorted_of (map (rand 0%nat) (seq 0 n)) us
     /\ forall j idx, (j < n)%nat -> inb (bin_shape edges) idx -> lo idx < nth j us 0 <= hi idx -> in_bin edges idx (column vals j).
Proof.
  intros Ho Hcase HT. assert (Hcase' := Hcase). destruct Hcase' as (Hea & Hg & Hs & Hdn & Hm & Hmn & Hsd & Hsm).
  destruct (sampler_spec ord ea edges dens mass sdens smass m Ho Hcase HT) as (G & E & E1 & E2 & E3 & E4 & E5 & E6 & E7 & HR).
  destruct (built_facts ord m _ _ Ho Hmn HT E7) as (F1 & F2 & F3 & F4 & F5). cbv zeta in F1, F2, F3, F4, F5.
  pose proof (mass_shape _ _ _ _ Hg Hs Hm) as SM.
  assert (Lm : length (flatten_nd m) = size_of_shape (bin_shape edges)) by (rewrite flatten_length, SM; reflexivity).
  set (lo := fun idx => lo_of (g_idx G) (g_csum G) (ravel (bin_shape edges) idx)). set (hi := fun idx => hi_of (g_idx G) (g_csum G) (ravel (bin_shape edges) idx)).
  assert (IF : forall u idx, 0 < u <= 1 -> inb (bin_shape edges) idx -> (random_bin (g_idx G) (g_csum G) u = Ok (ravel (bin_shape edges) idx) <-> lo idx < u <= hi idx)).
  { intros u idx Hu Hi. apply (bin_iff (flatten_nd m)); try assumption. rewrite Lm. apply ravel_lt, Hi. }
  exists G, lo, hi. split; [exact E|]. split; [|split].
  - intros idx Hi. destruct (lo_hi (flatten_nd m) (g_idx G) (g_csum G) F1 F2 F3 F4 F5 (ravel (bin_shape edges) idx)) as (A & B & C); [rewrite Lm; apply ravel_lt, Hi|].
    split; [exact A|]. split; [exact B|]. unfold lo, hi. rewrite C. rewrite <- SM in Hi |- *. rewrite flatten_nth by exact Hi. unfold total. rewrite asum_flat. reflexivity.
  - intros u Hu. destruct (bin_total (flatten_nd m) _ _ F1 F2 F3 F4 F5 u Hu) as (b & Hb & Eb). rewrite Lm in Hb. destruct (unravel_inb _ _ Hb) as [Hi Er].
    exists (unravel (bin_shape edges) b). split; [exact Hi|]. split; [apply IF; [exact Hu|exact Hi|rewrite Er; exact Eb]|].
    intros idx' Hi' H'. apply IF in H'; [|exact Hu|exact Hi']. rewrite Eb in H'. injection H' as ->. symmetry. apply ravel_unravel, Hi'.
  - intros nsamp interp rs rand n Hn Hr. destruct (HR nsamp interp rs rand n Hn Hr) as (vals & sc & bin & R1 & R2 & R3 & _).
    exists vals, sc, (np_sort (map (rand 0%nat) (seq 0 n))). split; [exact R1|]. split; [apply np_sort_spec|].
    intros j idx Hj Hi Hu. destruct (R3 j Hj) as (Hi' & Hb & Hv). set (idx' := bin j) in *. clearbody idx'.
    destruct (sorted_draw _ _ _ j Hr Hj) as (k & Hk & Eu & Huk). rewrite Eu in *.
    assert (L0 : 0 <= lo idx). { destruct (lo_hi (flatten_nd m) (g_idx G) (g_csum G) F1 F2 F3 F4 F5 (ravel (bin_shape edges) idx)) as (A & _); [rewrite Lm; apply ravel_lt, Hi|]. apply A. }
    assert (EQ : ravel (bin_shape edges) idx = ravel (bin_shape edges) idx').
    { apply IF in Hu; [|lra|exact Hi]. rewrite Hu in Hb. injection Hb as Hb. exact Hb. }
    apply (f_equal (unravel (bin_shape edges))) in EQ. rewrite !ravel_unravel in EQ by assumption. subst idx'.
    intros d Hd. rewrite Hv by exact Hd. cbv zeta. destruct (bin_edge _ _ _ Hg Hi Hd) as [_ Lt]. apply in_bin_affine; [exact Lt|].
    pose proof (Hr (S d) j ltac:(lia) Hj). destruct interp; [apply pos_unit; lra|lra].
Qed.

(* ------------------------------------------------------------ positions *)
Lemma side_mean_corner a d s idx : length idx = length (shp a) -> side_mean a d s idx = corner_sum a d s idx / 2 ^ (length (shp a) - 1).
Proof.
  intros L. unfold side_mean, corner_sum. rewrite L. apply (f_equal (fun z => z / _)). apply asum_ext. intros bits Hb. apply inb_length in Hb. rewrite set_nth_length, repeat_length in Hb.
  rewrite corner_add by (rewrite set_nth_length; lia). reflexivity.
Qed.
Lemma slope_side dens d idx : length idx = length (shp dens) -> mean_nd dens <> 0 ->
  slope_of dens d idx = Some ((side_mean dens d 1 idx - side_mean dens d 0 idx) / mean_nd dens).
Proof.
  intros L N. unfold slope_of. replace (Reqb (mean_nd dens) 0) with false by (symmetry; apply Reqb_false, N). rewrite !side_mean_corner by exact L. f_equal. field. split; [apply pow_nonzero; lra|exact N].
Qed.
(** C53: the position of a sample along each dimension of its bin. *)
Theorem sample_positions ord ea edges dens mass sdens smass m nsamp rs rand n :
  is_argsort ord -> grid_case ea edges dens mass sdens smass m -> 0 < total m -> 0 < total dens -> wants nsamp m n -> unit_draws (length edges) n rand ->
  exists G vals sc, Sample_Grid ord ea dens mass sdens smass = Ok G /\ sg_sample G nsamp true rs rand = Ok (vals, sc)
  /\ forall j, (j < n)%nat -> exists idx, inb (bin_shape edges) idx /\ forall d, (d < length edges)%nat ->
     let e := nth d edges [] in let i := nth d idx 0%nat in
     let g := (side_mean dens d 1 idx - side_mean dens d 0 idx) / (total dens / INR (size_of_shape (shp dens))) in
     exists x, 0 <= x <= 1 /\ column vals j d = nth i e 0 + (nth (S i) e 0 - nth i e 0) * x
     /\ (flat_tol < Rabs g -> (1 - g / 2) * x + g * x ^ 2 / 2 = rand (S d) j) /\ (Rabs g <= flat_tol -> x = rand (S d) j).
Proof.
  intros Ho Hcase HT HD Hn Hr. assert (Hcase' := Hcase). destruct Hcase' as (Hea & Hg & Hs & Hdn & Hm & Hmn & Hsd & Hsm).
  destruct (sampler_spec ord ea edges dens mass sdens smass m Ho Hcase HT) as (G & E & E1 & E2 & E3 & E4 & E5 & E6 & E7 & HR).
  destruct (HR nsamp true rs rand n Hn Hr) as (vals & sc & bin & R1 & R2 & R3 & _). exists G, vals, sc. split; [exact E|]. split; [exact R1|].
  intros j Hj. destruct (R3 j Hj) as (Hi & _ & Hv). set (idx := bin j) in *. exists idx. split; [exact Hi|]. intros d Hd. cbv zeta.
  assert (L : length idx = length (shp dens)) by (rewrite Hs, map_length; apply inb_length in Hi; unfold bin_shape in Hi; rewrite map_length in Hi; exact Hi).
  assert (SP : (0 < size_of_shape (shp dens))%nat) by (apply size_pos; intros k Hk; rewrite Hs in Hk; apply (good_len _ Hg) in Hk; lia).
  assert (MN : mean_nd dens <> 0). { unfold mean_nd. change (asum (shp dens) (at_ dens)) with (total dens). apply Rgt_not_eq. apply Rmult_lt_0_compat; [exact HD|apply Rinv_0_lt_compat, lt_0_INR, SP]. }
  pose proof (Hr (S d) j ltac:(lia) Hj) as Hu.
  exists (intrabin_pos (slope_of dens d idx) (rand (S d) j)). split; [apply pos_unit; lra|]. split; [apply Hv, Hd|].
  rewrite (slope_side dens d idx L MN). change (total dens / INR (size_of_shape (shp dens))) with (mean_nd dens). set (g := (side_mean dens d 1 idx - side_mean dens d 0 idx) / mean_nd dens). split.
  - intros Hgt. apply (pos_root g (rand (S d) j) Hgt). lra.
  - intros Hle. unfold intrabin_pos. destruct (Rltb_spec flat_tol (Rabs g)); [lra|reflexivity].
Qed.

(* ------------------------------------------------------------ one dimension *)
Lemma vec_mean ys : mean_nd (vec ys) = mean_of ys.
Proof. unfold mean_nd, mean_of, vec. cbn [shp at_ asum size_of_shape fold_right nth]. rewrite Nat.mul_1_r. f_equal. apply rsum_vget. Qed.
Lemma vec_side ys s i : side_mean (vec ys) 0 s [i] = nth (i + s) ys 0.
Proof. unfold side_mean. cbn. rewrite Rplus_0_l. field. Qed.
Lemma lsum_ge_two ys i : (forall y, In y ys -> 0 <= y) -> (S i < length ys)%nat -> nth i ys 0 + nth (S i) ys 0 <= lsum ys.
Proof.
  revert i. induction ys as [|y ys IH]; intros i H Hi; [cbn in Hi; lia|]. assert (H' : forall z, In z ys -> 0 <= z) by (intros z Hz; apply H; right; exact Hz). destruct i as [|i].
  - destruct ys as [|z ys]; [cbn in Hi; lia|]. cbn. assert (0 <= lsum ys) by (apply lsum_nonneg; intros w Hw; apply H'; right; exact Hw). lra.
  - cbn in Hi. specialize (IH i H' ltac:(lia)). specialize (H y (or_introl eq_refl)). cbn in *. lra.
Qed.

Lemma Rabs_over a b : 0 < b -> Rabs (a / b) = Rabs a / b.
Proof. intros H. unfold Rdiv. rewrite Rabs_mult, Rabs_inv, (Rabs_pos_eq b) by lra. reflexivity. Qed.
(** C54 *)
Theorem density_followed_iff ord e ys mass sdens smass m i :
  is_argsort ord -> grid_case (EFlat e) [e] (vec ys) mass sdens smass m -> 0 < total m ->
  (S i < length e)%nat -> 0 < at_ m [i] -> 0 < nth i ys 0 + nth (S i) ys 0 ->
  let yl := nth i ys 0 in let yr := nth (S i) ys 0 in
  exists G, Sample_Grid ord (EFlat e) (vec ys) mass sdens smass = Ok G
  /\ ((forall rs rand vals sc, unit_draws 1 1 rand -> sg_sample G (Some 1) true rs rand = Ok (vals, sc) ->
         nth i e 0 < column vals 0 0 < nth (S i) e 0 ->
         linear_cdf yl yr ((column vals 0 0 - nth i e 0) / (nth (S i) e 0 - nth i e 0)) = rand 1%nat 0%nat)
      <-> yl = yr \/ ((yl + yr) / 2 = mean_of ys /\ flat_tol < Rabs (yr - yl) / mean_of ys)).
Proof.
  intros Ho Hcase HT Hi Hmi Hy. cbv zeta. assert (Hcase' := Hcase). destruct Hcase' as (Hea & Hg & Hs & Hdn & Hm & Hmn & Hsd & Hsm).
  destruct (sampler_spec ord (EFlat e) [e] (vec ys) mass sdens smass m Ho Hcase HT) as (G & E & E1 & E2 & E3 & E4 & E5 & E6 & E7 & HR). exists G. split; [exact E|].
  assert (Le : length ys = length e) by (cbn in Hs; injection Hs as Hs; exact Hs).
  assert (Ie : incr_list e) by (apply Hg; left; reflexivity).
  assert (Yn : forall y, In y ys -> 0 <= y).
  { intros y Hin. apply (In_nth _ _ 0) in Hin. destruct Hin as [k [Hk <-]]. apply (Hdn [k]). constructor; [exact Hk|constructor]. }
  set (yl := nth i ys 0) in *. set (yr := nth (S i) ys 0) in *.
  assert (Mu : 0 < mean_of ys).
  { unfold mean_of. pose proof (lsum_ge_two ys i Yn ltac:(lia)) as A. fold yl yr in A. apply Rmult_lt_0_compat; [lra|apply Rinv_0_lt_compat, lt_0_INR; lia]. }
  set (mu := mean_of ys) in *.
  assert (Sl : forall k, slope_of (vec ys) 0 [k] = Some ((nth (S k) ys 0 - nth k ys 0) / mu)).
  { intros k. rewrite slope_side by (try reflexivity; rewrite vec_mean; fold mu; lra). rewrite !vec_side, vec_mean, Nat.add_0_r, Nat.add_1_r. reflexivity. }
  assert (W : wants (Some 1) m 1) by (unfold wants; cbn; lra).
  assert (W2 : 0 < nth (S i) e 0 - nth i e 0) by (pose proof (Ie i (S i) ltac:(lia) Hi); lra).
  (* one sample *)
  assert (One : forall rs rand, unit_draws 1 1 rand -> exists vals sc k, sg_sample G (Some 1) true rs rand = Ok (vals, sc) /\ (S k < length e)%nat
     /\ random_bin (g_idx G) (g_csum G) (rand 0%nat 0%nat) = Ok k
     /\ column vals 0 0 = nth k e 0 + (nth (S k) e 0 - nth k e 0) * intrabin_pos (Some ((nth (S k) ys 0 - nth k ys 0) / mu)) (rand 1%nat 0%nat)).
  { intros rs rand Hr. destruct (HR (Some 1) true rs rand 1%nat W Hr) as (vals & sc & bin & R1 & R2 & R3 & _). destruct (R3 0%nat ltac:(lia)) as (Hix & Hb & Hv). set (idx := bin 0%nat) in *. clearbody idx.
    assert (exists k, idx = [k] /\ (S k < length e)%nat) as (k & -> & Hk).
    { inversion Hix as [|k n idx' sh' Hk Hr' Ea Eb]. inversion Hr'. exists k. split; [reflexivity|]. lia. }
    exists vals, sc, k. split; [exact R1|]. split; [exact Hk|]. split.
    - cbn in Hb. replace (k * 1 + 0)%nat with k in Hb by lia. exact Hb.
    - specialize (Hv 0%nat ltac:(cbn; lia)). cbn [nth length] in Hv. cbv zeta in Hv. rewrite Sl in Hv. exact Hv. }
  assert (LC : forall g x, g = (yr - yl) / ((yl + yr) / 2) -> linear_cdf yl yr x = (1 - g / 2) * x + g * x ^ 2 / 2).
  { intros g x ->. unfold linear_cdf. field. lra. }
  split.
  - intros H. destruct (Req_dec yl yr) as [Eq|Ne]; [left; exact Eq|right].
    (* a draw that selects the bin *)
    destruct (built_facts ord m _ _ Ho Hmn HT E7) as (F1 & F2 & F3 & F4 & F5). cbv zeta in F1, F2, F3, F4, F5.
    pose proof (mass_shape _ _ _ _ Hg Hs Hm) as SM. assert (Lm : length (flatten_nd m) = (length e - 1)%nat) by (rewrite flatten_length, SM; cbn; lia).
    assert (Hil : (i < length (flatten_nd m))%nat) by lia. assert (Ii : inb (shp m) [i]) by (rewrite SM; constructor; [lia|constructor]).
    assert (Vi : vget (flatten_nd m) i = at_ m [i]).
    { rewrite <- (flatten_nth m [i] Ii), SM. cbn. f_equal. lia. }
    destruct (lo_hi _ _ _ F1 F2 F3 F4 F5 i Hil) as (A & B & C). rewrite Vi in C.
    assert (P : 0 < at_ m [i] / lsum (flatten_nd m)) by (apply Rmult_lt_0_compat; [exact Hmi|apply Rinv_0_lt_compat, F2]).
    set (lo := lo_of (g_idx G) (g_csum G) i) in *. set (hi := hi_of (g_idx G) (g_csum G) i) in *.
    set (rand := fun (d j : nat) => match d with O => (lo + hi) / 2 | _ => 1 / 2 end).
    assert (Hr : unit_draws 1 1 rand). { intros d j Hd Hj. unfold rand. destruct d; lra. }
    destruct (One None rand Hr) as (vals & sc & k & R1 & Hk & Hb & Hv).
    assert (Eb : random_bin (g_idx G) (g_csum G) (rand 0%nat 0%nat) = Ok i) by (apply (bin_iff _ _ _ F1 F2 F3 F4 F5); [unfold rand; lra|exact Hil|fold lo hi; unfold rand; lra]).
    rewrite Eb in Hb. injection Hb as <-. fold yl yr in Hv. change (rand 1%nat 0%nat) with (1 / 2) in Hv.
    set (g := (yr - yl) / mu) in *. specialize (H None rand vals sc Hr R1). change (rand 1%nat 0%nat) with (1 / 2) in H.
    destruct (Rlt_dec flat_tol (Rabs g)) as [T|T].
    + destruct (pos_root g (1 / 2) T ltac:(lra)) as [Px Pe]. set (x := intrabin_pos (Some g) (1 / 2)) in *.
      assert (Nx : 0 < x < 1). { split; (apply Rnot_le_lt; intros Q); [assert (x = 0) by lra|assert (x = 1) by lra]; subst x; nra. }
      rewrite Hv in H. specialize (H ltac:(nra)). replace ((nth i e 0 + (nth (S i) e 0 - nth i e 0) * x - nth i e 0) / (nth (S i) e 0 - nth i e 0)) with x in H by (field; lra).
      rewrite (LC _ x eq_refl) in H. set (b := (yr - yl) / ((yl + yr) / 2)) in *.
      assert (D : (b - g) * (x * (1 - x)) = 0) by lra. apply Rmult_integral in D. destruct D as [D|D]; [|nra].
      split; [|unfold g in T; rewrite Rabs_over in T by exact Mu; exact T].
      assert (D' : (yr - yl) * (mu - (yl + yr) / 2) = 0). { assert (Q : b * ((yl + yr) / 2) * mu = g * mu * ((yl + yr) / 2)) by (replace g with b by lra; ring). unfold b, g in Q. replace ((yr - yl) / ((yl + yr) / 2) * ((yl + yr) / 2) * mu) with ((yr - yl) * mu) in Q by (field; lra). replace ((yr - yl) / mu * mu) with (yr - yl) in Q by (field; lra). lra. }
      apply Rmult_integral in D'. destruct D' as [D'|D']; lra.
    + exfalso. assert (Px : intrabin_pos (Some g) (1 / 2) = 1 / 2) by (unfold intrabin_pos; destruct (Rltb_spec flat_tol (Rabs g)); [contradiction|reflexivity]).
      rewrite Px in Hv. rewrite Hv in H. specialize (H ltac:(nra)). replace ((nth i e 0 + (nth (S i) e 0 - nth i e 0) * (1 / 2) - nth i e 0) / (nth (S i) e 0 - nth i e 0)) with (1 / 2) in H by (field; lra).
      rewrite (LC _ (1 / 2) eq_refl) in H. assert (Q : (yr - yl) / ((yl + yr) / 2) = 0) by lra. apply Ne. apply (Rmult_eq_compat_r ((yl + yr) / 2)) in Q. unfold Rdiv in Q at 1. rewrite Rmult_assoc, Rinv_l in Q by lra. lra.
  - intros H rs rand vals sc Hr R Hx. destruct (One rs rand Hr) as (vals' & sc' & k & R1 & Hk & _ & Hv). rewrite R1 in R. injection R as -> ->.
    pose proof (Hr 1%nat 0%nat ltac:(lia) ltac:(lia)) as Hu. set (u := rand 1%nat 0%nat) in *.
    pose proof (pos_unit (Some ((nth (S k) ys 0 - nth k ys 0) / mu)) u ltac:(lra)) as Pu.
    assert (Ek : k = i).
    { pose proof (in_bin_affine (nth k e 0) (nth (S k) e 0) _ (Ie k (S k) ltac:(lia) Hk) Pu) as B. rewrite <- Hv in B.
      destruct (Nat.lt_trichotomy k i) as [L|[Q|L]]; [exfalso|exact Q|exfalso].
      - assert (nth (S k) e 0 <= nth i e 0) by (destruct (Nat.eq_dec (S k) i) as [->|]; [lra|left; apply Ie; lia]). lra.
      - assert (nth (S i) e 0 <= nth k e 0) by (destruct (Nat.eq_dec (S i) k) as [<-|]; [lra|left; apply Ie; lia]). lra. }
    subst k. fold yl yr in Hv, Pu. set (g := (yr - yl) / mu) in *. set (x := intrabin_pos (Some g) u) in *. rewrite Hv.
    replace ((nth i e 0 + (nth (S i) e 0 - nth i e 0) * x - nth i e 0) / (nth (S i) e 0 - nth i e 0)) with x by (field; lra).
    destruct H as [Eq|[Eq T]].
    + assert (G0 : g = 0) by (unfold g; rewrite Eq; field; lra). unfold x. rewrite G0. unfold intrabin_pos. rewrite Rabs_R0. destruct (Rltb_spec flat_tol 0) as [C|_].
      { exfalso. assert (0 < flat_tol) by (unfold flat_tol; apply Rinv_0_lt_compat, pow_lt; lra). lra. }
      rewrite Eq. unfold linear_cdf. field. lra.
    + assert (T' : flat_tol < Rabs g) by (unfold g; rewrite Rabs_over by exact Mu; exact T).
      rewrite (LC g x) by (unfold g; rewrite Eq; reflexivity). apply (pos_root g u T'). lra.
Qed.

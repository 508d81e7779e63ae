(** Theorems about Sample_Grid. *)
From Coq Require Import ZArith Permutation.
From Verif Require Import Base ModelLinAlg ModelKernels ModelKDE ModelInterp ModelResample ModelUtils ModelNd ModelSample
  SpecUtils SpecNd SpecSample ProofInterp ProofUtils ProofUtils2 ProofUtils4 ProofNested ProofNd ProofNd2 ProofNd3 ProofGrid ProofGrid2 ProofSample ProofSample2 ProofSample3.
Open Scope R_scope.
Notation length := List.length.

(* ------------------------------------------------------------ positions within a bin *)
Lemma pos_root g u : flat_tol < Rabs g -> 0 <= u <= 1 -> let x := intrabin_pos (Some g) u in
  0 <= x <= 1 /\ (1 - g / 2) * x + g * x ^ 2 / 2 = u.
Proof.
  intros Hg Hu. cbv zeta. unfold intrabin_pos. destruct (Rltb_spec flat_tol (Rabs g)) as [_|C]; [|lra]. cbv zeta.
  assert (T : 0 < flat_tol) by (unfold flat_tol; apply Rinv_0_lt_compat, pow_lt; lra).
  assert (G0 : g <> 0) by (intros ->; rewrite Rabs_R0 in Hg; lra).
  set (y := 1 - g / 2). set (q := 2 * u * g + y ^ 2).
  assert (Q0 : 0 <= q).
  { unfold q, y. pose proof (pow2_ge_0 (1 - g / 2)). pose proof (pow2_ge_0 (1 + g / 2)). destruct (Rle_dec 0 g); [assert (0 <= u * g) by nra; lra|].
    assert (g <= u * g) by nra. replace ((1 - g / 2) ^ 2) with ((1 + g / 2) ^ 2 - 2 * g) by field. lra. }
  pose proof (sqrt_pos q) as S0. pose proof (sqrt_sqrt q Q0) as SS. set (s := sqrt q) in *.
  assert (R1 : forall x, x = (s - y) / g -> g * x = s - y) by (intros x ->; field; exact G0).
  set (x := (s - y) / g) in *. specialize (R1 x eq_refl).
  assert (Eq : y * x + g * x ^ 2 / 2 = u).
  { apply (Rmult_eq_reg_l (2 * g)); [|lra]. replace (2 * g * (y * x + g * x ^ 2 / 2)) with (2 * y * (g * x) + (g * x) ^ 2) by field. rewrite R1.
    replace (2 * y * (s - y) + (s - y) ^ 2) with (s * s - y ^ 2) by ring. rewrite SS. unfold q. ring. }
  split; [|unfold y in Eq; exact Eq].
  destruct (Rlt_dec 0 g) as [P|P].
  - assert (A1 : y <= s). { destruct (Rle_dec y 0); [lra|]. apply Rsqr_incr_0_var; [unfold Rsqr; rewrite SS; unfold q; nra|exact S0]. }
    assert (A2 : s <= 1 + g / 2). { apply Rsqr_incr_0_var; [|lra]. unfold Rsqr. rewrite SS. unfold q, y. nra. }
    unfold y in *. split; nra.
  - assert (N : g < 0) by lra.
    assert (A1 : s <= y). { apply Rsqr_incr_0_var; [|unfold y; lra]. unfold Rsqr. rewrite SS. unfold q. nra. }
    assert (A2 : 1 + g / 2 <= s). { destruct (Rle_dec (1 + g / 2) 0); [lra|]. apply Rsqr_incr_0_var; [|exact S0]. unfold Rsqr. rewrite SS. unfold q, y. nra. }
    unfold y in *. split; nra.
Qed.
Lemma pos_unit g u : 0 <= u <= 1 -> 0 <= intrabin_pos g u <= 1.
Proof.
  intros Hu. destruct g as [g|]; [|exact Hu]. destruct (Rlt_dec flat_tol (Rabs g)) as [H|H]; [apply pos_root; assumption|].
  unfold intrabin_pos. destruct (Rltb_spec flat_tol (Rabs g)); [contradiction|exact Hu].
Qed.
Theorem intrabin_inverse g u : flat_tol < Rabs g -> Rabs g <= 2 -> 0 <= u <= 1 ->
  let x := intrabin_pos (Some g) u in
  0 <= x <= 1 /\ linear_cdf (1 - g / 2) (1 + g / 2) x = u /\ forall x', 0 <= x' <= 1 -> linear_cdf (1 - g / 2) (1 + g / 2) x' = u -> x' = x.
Proof.
  intros Ht Hg Hu. cbv zeta. destruct (pos_root g u Ht Hu) as [H1 H2]. set (x := intrabin_pos (Some g) u) in *.
  assert (L : forall z, linear_cdf (1 - g / 2) (1 + g / 2) z = (1 - g / 2) * z + g * z ^ 2 / 2) by (intros z; unfold linear_cdf; field; lra).
  split; [exact H1|]. split; [rewrite L; exact H2|]. intros x' H3 H4. rewrite L in H4.
  assert (D : (x' - x) * ((1 - g / 2) + g * (x' + x) / 2) = 0) by lra.
  assert (G2 : - 2 <= g <= 2) by (unfold Rabs in Hg; destruct (Rcase_abs g); lra).
  apply Rmult_integral in D. destruct D as [D|D]; [lra|].
  (* the density at the midpoint vanishes only at an end *)
  assert (D' : g * (x' + x - 1) = -2) by lra. destruct (Rle_dec g 0) as [N|N].
  - assert (A : g * (x' + x - 1) >= g) by nra. assert (E : g = -2) by lra. rewrite E in D'. lra.
  - assert (A : g * (x' + x - 1) >= - g) by nra. assert (E : g = 2) by lra. rewrite E in D'. lra.
Qed.

(* ------------------------------------------------------------ draws of bins *)
Lemma mem_nonneg m : nonneg_nd m -> forall x, In x (flatten_nd m) -> 0 <= x.
Proof. intros H x Hx. unfold flatten_nd in Hx. apply in_map_iff in Hx. destruct Hx as [idx [<- Hi]]. apply H, inb_all_idx, Hi. Qed.
Lemma sorted_draw D n rand j : unit_draws D n rand -> (j < n)%nat -> exists k, (k < n)%nat /\ nth j (np_sort (map (rand 0%nat) (seq 0 n))) 0 = rand 0%nat k /\ 0 <= rand 0%nat k < 1.
Proof.
  intros H Hj. set (us := map (rand 0%nat) (seq 0 n)).
  assert (I : In (nth j (np_sort us) 0) us).
  { eapply Permutation_in; [apply Permutation_sym, sort_perm|]. apply nth_In. unfold us. rewrite np_sort_length, map_length, seq_length. exact Hj. }
  unfold us in I at 2. apply in_map_iff in I. destruct I as [k [E Hk]]. apply in_seq in Hk. exists k. split; [lia|]. split; [symmetry; exact E|]. apply H; lia.
Qed.

Section Built.
  Context (ord : list R -> list nat) (m : nda) (idx : list nat) (cs : list R).
  Context (Ho : is_argsort ord) (Hm : nonneg_nd m) (HT : 0 < total m) (Hc : data_to_cumulative ord m = Ok (idx, cs)).
  Lemma built_facts : let fm := flatten_nd m in (forall x, In x fm -> 0 <= x) /\ 0 < lsum fm /\ Permutation idx (seq 0 (length fm)) /\ length cs = S (length fm)
    /\ forall k, (k <= length fm)%nat -> vget cs k = psum fm idx k / lsum fm.
  Proof.
    cbv zeta. destruct (cum_values ord m idx cs Ho Hc) as (_ & _ & Hp & _ & Hl & Hv). set (fm := flatten_nd m) in *.
    assert (P : 0 < lsum fm) by (unfold fm; rewrite <- asum_flat; exact HT).
    split; [apply mem_nonneg, Hm|]. split; [exact P|]. split; [exact Hp|]. split; [exact Hl|]. intros k Hk. rewrite Hv by exact Hk.
    replace (Reqb (lsum fm) 0) with false; [reflexivity|]. symmetry. apply Reqb_false. lra.
  Qed.
  Lemma built_bin u : 0 <= u <= 1 -> let fm := flatten_nd m in exists b, (b < length fm)%nat /\ random_bin idx cs u = Ok b /\ 0 < vget fm b.
  Proof.
    intros Hu fm. destruct built_facts as (F1 & F2 & F3 & F4 & F5). fold fm in F1, F2, F3, F4, F5. destruct (Rlt_dec 0 u) as [P|P].
    - destruct (bin_total fm idx cs F1 F2 F3 F4 F5 u ltac:(lra)) as (b & Hb & E). exists b. split; [exact Hb|]. split; [exact E|].
      destruct (bin_iff fm idx cs F1 F2 F3 F4 F5 u b ltac:(lra) Hb) as [I _]. specialize (I E).
      destruct (lo_hi fm idx cs F1 F2 F3 F4 F5 b Hb) as (_ & _ & W).
      assert (Q : 0 < vget fm b / lsum fm) by lra. apply (Rmult_lt_reg_r (/ lsum fm)); [apply Rinv_0_lt_compat, F2|]. rewrite Rmult_0_l. exact Q.
    - replace u with 0 by lra. destruct (bin_zero fm idx cs F1 F2 F3 F4 F5) as [E L]. exists (nth (length fm - 1) idx 0%nat). split; [exact L|]. split; [exact E|].
      destruct (cum_values ord m idx cs Ho Hc) as (_ & Ei & _ & Li & _). fold fm in Ei, Li. destruct (Ho fm) as [_ Hnd]. rewrite <- Ei in Hnd.
      destruct (Rlt_dec 0 (vget fm (nth (length fm - 1) idx 0%nat))) as [Q|Q]; [exact Q|exfalso].
      assert (Z : lsum fm <= 0).
      { rewrite <- (psum_total fm idx F3). unfold psum. rewrite <- (rsum_zero (length fm)). apply rsum_le. intros k Hk.
        assert (B := Hnd k (length fm - 1)%nat ltac:(lia) ltac:(rewrite map_length; lia)). rewrite !(nth_map _ _ _ _ 0%nat) in B by lia. unfold vget in *. lra. }
      lra.
  Qed.
End Built.

Lemma in_bin_affine a b t : a < b -> 0 <= t <= 1 -> a <= a + (b - a) * t <= b.
Proof. intros. nra. Qed.

Definition same_draws (n : nat) (rand : nat -> nat -> R) (us : list R) : Prop := sorted_of (map (rand 0%nat) (seq 0 n)) us.

(** What the sampler does, once for all. *)
Lemma sampler_spec ord ea edges dens mass sdens smass m : is_argsort ord -> grid_case ea edges dens mass sdens smass m -> 0 < total m ->
  exists G, Sample_Grid ord ea dens mass sdens smass = Ok G /\ g_edges G = edges /\ g_dens G = dens /\ g_mass G = m /\ g_bins G = bin_shape edges /\ g_sdens G = sdens
  /\ (forall sd, sdens = Some sd -> exists sm, g_smass G = Some sm /\ shp sm = bin_shape edges /\ (smass = Some sm \/ smass = None /\ trapz_dens_to_mass sd edges None = Ok sm))
  /\ data_to_cumulative ord m = Ok (g_idx G, g_csum G)
  /\ forall nsamp interp rs rand n, wants nsamp m n -> unit_draws (length edges) n rand ->
     exists vals sc (bin : nat -> list nat), sg_sample G nsamp interp rs rand = Ok (vals, sc) /\ shp vals = [length edges; n]
     /\ (forall j, (j < n)%nat -> inb (bin_shape edges) (bin j)
        /\ random_bin (g_idx G) (g_csum G) (nth j (np_sort (map (rand 0%nat) (seq 0 n))) 0) = Ok (ravel (bin_shape edges) (bin j))
        /\ (forall d, (d < length edges)%nat -> column vals j d = (let e := nth d edges [] in let i := nth d (bin j) 0%nat in
              nth i e 0 + (nth (S i) e 0 - nth i e 0) * (if interp then intrabin_pos (slope_of dens d (bin j)) (rand (S d) j) else rand (S d) j))))
     /\ (forall sd sm, sdens = Some sd -> g_smass G = Some sm -> rs <> Some false ->
              exists l, sc = Some l /\ length l = n /\ forall j, (j < n)%nat -> nth j l 0 = at_ sm (bin j) + (if interp then rsum (length edges) (fun d => scalar_slope sd d (bin j) * (rand (S d) j - 1 / 2)) else 0))
     /\ (sdens = None \/ rs = Some false -> sc = None).
Proof.
  intros Ho Hcase HT. assert (Hcase' := Hcase). destruct Hcase' as (Hea & Hg & Hs & Hdn & Hm & Hmn & Hsd & Hsm).
  destruct (grid_built ord (fun m => m) ea edges dens mass sdens smass m Hcase (fun a => eq_refl)) as (G & E & E1 & E2 & E3 & E4 & E5 & E6 & E7).
  exists G. repeat (split; [assumption|]). intros nsamp interp rs rand n Hn Hr.
  destruct (sample_run G edges nsamp interp rs rand n) as (vals & sc & bin & R1 & R2 & R3).
  - exact E1.
  - exact Hg.
  - rewrite E2. exact Hs.
  - exact E4.
  - rewrite E5. intros sd Esd. split; [rewrite (Hsd sd Esd); exact Hs|]. destruct (E6 sd Esd) as (sm & A & B & _). exists sm. split; assumption.
  - rewrite E3. apply trunc_wants. exact Hn.
  - intros j Hj. destruct (sorted_draw _ _ _ j Hr Hj) as (k & Hk & Eu & Hu). rewrite Eu. destruct (built_bin ord m _ _ Ho Hmn HT E7 (rand 0%nat k) ltac:(lra)) as (b & Hb & Eb & _).
    exists b. rewrite flatten_length, (mass_shape _ _ _ _ Hg Hs Hm) in Hb. split; assumption.
  - exists vals, sc, bin. split; [exact R1|]. split; [exact R2|]. rewrite E2, E5 in R3. exact R3.
Qed.

(** C51: every sample is in a bin of the grid of positive mass. *)
Theorem samples_in_bins ord ea edges dens mass sdens smass m nsamp interp rs rand n :
  is_argsort ord -> grid_case ea edges dens mass sdens smass m -> 0 < total m -> wants nsamp m n -> unit_draws (length edges) n rand ->
  exists G vals sc, Sample_Grid ord ea dens mass sdens smass = Ok G /\ sg_sample G nsamp interp rs rand = Ok (vals, sc)
  /\ shp vals = [length edges; n]
  /\ forall j, (j < n)%nat -> exists idx, inb (bin_shape edges) idx /\ in_bin edges idx (column vals j) /\ 0 < at_ m idx.
Proof.
  intros Ho Hcase HT Hn Hr. assert (Hcase' := Hcase). destruct Hcase' as (Hea & Hg & Hs & Hdn & Hm & Hmn & Hsd & Hsm).
  destruct (sampler_spec ord ea edges dens mass sdens smass m Ho Hcase HT) as (G & E & E1 & E2 & E3 & E4 & E5 & E6 & E7 & HR).
  destruct (HR nsamp interp rs rand n Hn Hr) as (vals & sc & bin & R1 & R2 & R3 & _). exists G, vals, sc. split; [exact E|]. split; [exact R1|]. split; [exact R2|].
  intros j Hj. destruct (R3 j Hj) as (Hi & Hb & Hv). set (idx := bin j) in *. exists idx. split; [exact Hi|]. split.
  - intros d Hd. rewrite Hv by exact Hd. cbv zeta. set (e := nth d edges []). set (i := nth d idx 0%nat).
    assert (Hi' : (i < length e - 1)%nat).
    { pose proof (inb_nth _ _ d Hi) as A. unfold bin_shape in A. rewrite map_length in A. specialize (A Hd). rewrite (nth_map _ _ _ _ []) in A by exact Hd. exact A. }
    assert (Ie : incr_list e) by (apply Hg, nth_In, Hd).
    apply in_bin_affine; [apply Ie; lia|]. pose proof (Hr (S d) j ltac:(lia) Hj). destruct interp; [apply pos_unit; lra|lra].
  - destruct (sorted_draw _ _ _ j Hr Hj) as (k & Hk & Eu & Hu). rewrite Eu in Hb. destruct (built_bin ord m _ _ Ho Hmn HT E7 (rand 0%nat k) ltac:(lra)) as (b & Hbl & Eb & Hp).
    rewrite Eb in Hb. injection Hb as ->. rewrite <- (mass_shape _ _ _ _ Hg Hs Hm) in Hp, Hi. rewrite flatten_nth in Hp by exact Hi. exact Hp.
Qed.

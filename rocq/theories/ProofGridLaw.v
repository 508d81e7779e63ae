(** The law of samples from gridded distributions. *)
From Coquelicot Require Import Coquelicot.
From Coq Require Import ZArith Permutation.
From Verif Require Import Base ModelLinAlg ModelKernels ModelKDE ModelInterp ModelResample ModelUtils ModelNd ModelSample
  SpecUtils SpecNd SpecSample SpecGridLaw ProofInterp ProofUtils ProofUtils2 ProofUtils4 ProofNested ProofNd ProofNd2 ProofNd3 ProofGrid ProofGrid2
  ProofSample ProofSample2 ProofSample3 ProofSample4 ProofSample5 ProofSample7 ProofSample8.
Open Scope R_scope.
Notation length := List.length.

(** * Within a bin *)
Lemma reach_order g : 0 <= reach_lo g < reach_hi g /\ reach_hi g <= 1.
Proof.
  unfold reach_lo, reach_hi. destruct (Rle_dec g 2) as [A|A]; destruct (Rle_dec (-2) g) as [B|B]; try lra.
  - assert (E : 0 < - 2 / g <= 1); [|lra]. replace (- 2 / g) with (2 / (- g)) by (field; lra). split; [apply Rdiv_lt_0_compat; lra|]. apply (Rmult_le_reg_r (- g)); [lra|]. unfold Rdiv. rewrite Rmult_assoc, Rinv_l by lra. lra.
  - assert (E : 0 < 2 / g < 1); [|lra]. split; [apply Rdiv_lt_0_compat; lra|]. apply (Rmult_lt_reg_r g); [lra|]. unfold Rdiv. rewrite Rmult_assoc, Rinv_l by lra. lra.
Qed.
Lemma reach_cdf g : (1 - g / 2) * reach_lo g + g * reach_lo g ^ 2 / 2 = 0 /\ (1 - g / 2) * reach_hi g + g * reach_hi g ^ 2 / 2 = 1.
Proof. unfold reach_lo, reach_hi. split; [destruct (Rle_dec g 2); field; lra|destruct (Rle_dec (-2) g); field; lra]. Qed.
Lemma reach_pos g x : reach_lo g <= x <= reach_hi g -> 0 <= 1 - g / 2 + g * x.
Proof.
  intros [H1 H2]. unfold reach_lo, reach_hi in *. destruct (Rle_dec 0 g) as [P|P].
  - destruct (Rle_dec g 2) as [A|A]; [assert (0 <= g * x) by (apply Rmult_le_pos; lra); lra|].
    assert (g * (1 - 2 / g) <= g * x) by (apply Rmult_le_compat_l; lra). replace (g * (1 - 2 / g)) with (g - 2) in H by (field; lra). lra.
  - destruct (Rle_dec (-2) g) as [A|A].
    + assert (g * 1 <= g * x) by (apply Rmult_le_compat_neg_l; lra). lra.
    + assert (g * (- 2 / g) <= g * x) by (apply Rmult_le_compat_neg_l; lra). replace (g * (- 2 / g)) with (-2) in H by (field; lra). lra.
Qed.
(** The position as a continuous function of the random number. *)
Definition root_pos (g u : R) : R := (sqrt (2 * u * g + (1 - g / 2) ^ 2) - (1 - g / 2)) / g.
Lemma root_cont g u : g <> 0 -> continuous (root_pos g) u.
Proof.
  intros Hg. unfold root_pos. apply (continuous_mult (fun u => sqrt (2 * u * g + (1 - g / 2) ^ 2) - (1 - g / 2)) (fun _ => / g)); [|apply continuous_const].
  apply (continuous_minus (fun u => sqrt (2 * u * g + (1 - g / 2) ^ 2)) (fun _ => 1 - g / 2)); [|apply continuous_const].
  apply (continuous_comp (fun u => 2 * u * g + (1 - g / 2) ^ 2) sqrt); [|apply continuous_sqrt].
  apply (ex_derive_continuous (fun u => 2 * u * g + (1 - g / 2) ^ 2)). auto_derive. trivial.
Qed.
Lemma root_inverse g x : g <> 0 -> reach_lo g <= x <= reach_hi g -> root_pos g ((1 - g / 2) * x + g * x ^ 2 / 2) = x.
Proof.
  intros Hg Hx. unfold root_pos. replace (2 * ((1 - g / 2) * x + g * x ^ 2 / 2) * g + (1 - g / 2) ^ 2) with ((1 - g / 2 + g * x) ^ 2) by field.
  replace ((1 - g / 2 + g * x) ^ 2) with (Rsqr (1 - g / 2 + g * x)) by (unfold Rsqr; ring). rewrite sqrt_Rsqr by (apply reach_pos; exact Hx). field. exact Hg.
Qed.
Lemma bin_law g (h : R -> R) : g <> 0 -> (forall x, continuous h x) ->
  exists l, is_RInt (fun u => h (root_pos g u)) 0 1 l /\ is_RInt (fun x => h x * (1 - g / 2 + g * x)) (reach_lo g) (reach_hi g) l.
Proof.
  intros Hg Hh. assert (Hc : forall u, continuous (fun u => h (root_pos g u)) u) by (intros u; apply (continuous_comp (root_pos g) h); [apply root_cont, Hg|apply Hh]).
  exists (RInt (fun u => h (root_pos g u)) 0 1). split; [apply (RInt_correct (fun u => h (root_pos g u))), (ex_RInt_continuous (fun u => h (root_pos g u))); intros; apply Hc|].
  destruct (reach_cdf g) as [E0 E1]. pose proof (reach_order g) as HO.
  pose proof (is_RInt_comp (fun u => h (root_pos g u)) (fun x => (1 - g / 2) * x + g * x ^ 2 / 2) (fun x => 1 - g / 2 + g * x) (reach_lo g) (reach_hi g)) as H.
  cbv beta in H. rewrite E0, E1 in H. eapply is_RInt_ext; [|apply H].
  - intros x Hx. rewrite Rmin_left, Rmax_right in Hx by lra. cbv beta. rewrite root_inverse by (try exact Hg; lra). unfold scal; cbn; unfold mult; cbn. ring.
  - intros x _. apply Hc.
  - intros x _. split; [auto_derive; [trivial|field]|]. apply (ex_derive_continuous (fun x => 1 - g / 2 + g * x)). auto_derive. trivial.
Qed.
Lemma uniform_law (h : R -> R) : (forall x, continuous h x) -> exists l, is_RInt h 0 1 l /\ is_RInt (fun x => h x * (1 - 0 / 2 + 0 * x)) (reach_lo 0) (reach_hi 0) l.
Proof.
  intros Hh. exists (RInt h 0 1). assert (H : is_RInt h 0 1 (RInt h 0 1)) by (apply (RInt_correct h), (ex_RInt_continuous h); intros; apply Hh). split; [exact H|].
  unfold reach_lo, reach_hi. destruct (Rle_dec 0 2); [|lra]. destruct (Rle_dec (-2) 0); [|lra]. eapply is_RInt_ext; [|exact H]. intros x _. change (h x = h x * (1 - 0 / 2 + 0 * x)). field.
Qed.
(** From the unit bin to the bin from [a] to [b]. *)
Lemma bin_shift a b g h l : a < b -> is_RInt (fun x => h (a + (b - a) * x) * (1 - g / 2 + g * x)) (reach_lo g) (reach_hi g) l -> bin_mean a b g h l.
Proof.
  intros Hab H. unfold bin_mean. set (A := a + (b - a) * reach_lo g). set (B := a + (b - a) * reach_hi g).
  replace (reach_lo g) with (/ (b - a) * A + - a / (b - a)) in H by (unfold A; field; lra).
  replace (reach_hi g) with (/ (b - a) * B + - a / (b - a)) in H by (unfold B; field; lra).
  pose proof (is_RInt_comp_lin _ (/ (b - a)) (- a / (b - a)) A B l H) as H'. eapply is_RInt_ext; [|exact H']. intros x _. unfold scal; cbn; unfold mult; cbn.
  replace (a + (b - a) * (/ (b - a) * x + - a / (b - a))) with x by (field; lra). replace (/ (b - a) * x + - a / (b - a)) with ((x - a) / (b - a)) by (field; lra). unfold Rdiv. ring.
Qed.

(** * Sums of steps *)
Lemma RInt_sumf {A} (f : A -> R -> R) (v : A -> R) a b l : (forall x, In x l -> is_RInt (f x) a b (v x)) -> is_RInt (fun t => sumf (fun x => f x t) l) a b (sumf v l).
Proof.
  induction l as [|x l IH]; intros H.
  - unfold sumf. cbn [map lsum]. assert (E := is_RInt_const a b 0). unfold scal in E; cbn in E; unfold mult in E; cbn in E. rewrite Rmult_0_r in E. exact E.
  - apply (is_RInt_ext (fun t => plus (f x t) (sumf (fun x => f x t) l))); [intros t _; reflexivity|].
    apply (is_RInt_plus (f x) (fun t => sumf (fun x => f x t) l) a b (v x) (sumf v l)); [apply H; left; reflexivity|apply IH; intros y Hy; apply H; right; exact Hy].
Qed.
Definition inside_step (lo hi c u : R) : R := if Rlt_dec lo u then (if Rle_dec u hi then c else 0) else 0.
Lemma RInt_step lo hi c : 0 <= lo <= hi -> hi <= 1 -> is_RInt (inside_step lo hi c) 0 1 ((hi - lo) * c).
Proof.
  intros H1 H2. replace ((hi - lo) * c) with ((lo - 0) * 0 + ((hi - lo) * c + (1 - hi) * 0)) by ring.
  apply (is_RInt_Chasles (V := R_NormedModule) (inside_step lo hi c) 0 lo 1 ((lo - 0) * 0) ((hi - lo) * c + (1 - hi) * 0)); [|apply (is_RInt_Chasles (V := R_NormedModule) (inside_step lo hi c) lo hi 1 ((hi - lo) * c) ((1 - hi) * 0))].
  - apply (is_RInt_ext (fun _ => 0)); [|apply (is_RInt_const (V := R_NormedModule) 0 lo 0)]. intros u Hu. rewrite Rmin_left, Rmax_right in Hu by lra. unfold inside_step. destruct (Rlt_dec lo u); [lra|reflexivity].
  - apply (is_RInt_ext (fun _ => c)); [|apply (is_RInt_const (V := R_NormedModule) lo hi c)]. intros u Hu. rewrite Rmin_left, Rmax_right in Hu by lra. unfold inside_step. destruct (Rlt_dec lo u); [|lra]. destruct (Rle_dec u hi); [reflexivity|lra].
  - apply (is_RInt_ext (fun _ => 0)); [|apply (is_RInt_const (V := R_NormedModule) hi 1 0)]. intros u Hu. rewrite Rmin_left, Rmax_right in Hu by lra. unfold inside_step. destruct (Rlt_dec lo u); [|reflexivity]. destruct (Rle_dec u hi); [lra|reflexivity].
Qed.
Lemma sumf_one {A} (f : A -> R) x0 : forall l, NoDup l -> In x0 l -> (forall x, In x l -> x <> x0 -> f x = 0) -> sumf f l = f x0.
Proof.
  induction l as [|x l IH]; intros Hn Hi Hz; [contradiction|]. inversion Hn as [|? ? Hx Hl]; subst. unfold sumf in *. cbn [map lsum]. destruct Hi as [->|Hi].
  - replace (lsum (map f l)) with 0; [ring|]. symmetry. apply (sumf_zero f l). intros y Hy. apply Hz; [right; exact Hy|]. intros ->. contradiction.
  - rewrite (Hz x) by (try (left; reflexivity); intros ->; contradiction). rewrite IH; [ring|exact Hl|exact Hi|]. intros y Hy. apply Hz. right. exact Hy.
Qed.

(** * The law of a sample *)
Lemma slope_used dens d idx u : length idx = length (shp dens) -> (0 < size_of_shape (shp dens))%nat -> 0 < total dens ->
  intrabin_pos (slope_of dens d idx) u = (let g := used_slope true dens d idx in if Req_EM_T g 0 then u else root_pos g u).
Proof.
  intros L SP HD. assert (MN : mean_nd dens <> 0). { unfold mean_nd. change (asum (shp dens) (at_ dens)) with (total dens). apply Rgt_not_eq. apply Rmult_lt_0_compat; [exact HD|apply Rinv_0_lt_compat, lt_0_INR, SP]. }
  rewrite (slope_side dens d idx L MN). change ((side_mean dens d 1 idx - side_mean dens d 0 idx) / mean_nd dens) with (rel_slope dens d idx). set (g := rel_slope dens d idx).
  unfold used_slope. fold g. cbv zeta. unfold intrabin_pos. assert (T : 0 < flat_tol) by (unfold flat_tol; apply Rinv_0_lt_compat, pow_lt; lra).
  destruct (Rltb_spec flat_tol (Rabs g)) as [H|H]; destruct (Rlt_dec (/ 10 ^ 16) (Rabs g)) as [H'|H']; try contradiction.
  - destruct (Req_EM_T g 0) as [E|E]; [rewrite E, Rabs_R0 in H; lra|]. reflexivity.
  - destruct (Req_EM_T 0 0) as [_|E]; [reflexivity|contradiction E; reflexivity].
Qed.
Definition pos_of (g u : R) : R := if Req_EM_T g 0 then u else root_pos g u.
Lemma pos_law a b g h : a < b -> (forall x, continuous h x) -> exists l, is_RInt (fun u => h (a + (b - a) * pos_of g u)) 0 1 l /\ bin_mean a b g h l.
Proof.
  intros Hab Hh. set (k := fun x => h (a + (b - a) * x)).
  assert (Hk : forall x, continuous k x). { intros x. apply (continuous_comp (fun x => a + (b - a) * x) h); [|apply Hh]. apply (ex_derive_continuous (fun x => a + (b - a) * x)). auto_derive. trivial. }
  unfold pos_of. destruct (Req_EM_T g 0) as [->|E].
  - destruct (uniform_law k Hk) as (l & H1 & H2). exists l. split; [exact H1|]. apply bin_shift; [exact Hab|exact H2].
  - destruct (bin_law g k E Hk) as (l & H1 & H2). exists l. split; [exact H1|]. apply bin_shift; [exact Hab|exact H2].
Qed.
Lemma bin_ends edges d idx : good_edges edges -> inb (bin_shape edges) idx -> (d < length edges)%nat -> left_of edges d idx < right_of edges d idx.
Proof. intros Hg Hi Hd. apply (bin_edge edges idx d Hg Hi Hd). Qed.
Lemma wants_1 m : wants (Some 1) m 1.
Proof. unfold wants. cbn. lra. Qed.
Definition the_rand (d : nat) (c : nat -> R) (u0 u : R) : nat -> nat -> R := fun k _ => match k with O => u0 | S k' => if Nat.eq_dec k' d then u else c k' end.

Definition draw_pos (interp : bool) (edges : list (list R)) (dens : nda) (d : nat) (idx : list nat) (u : R) : R :=
  left_of edges d idx + (right_of edges d idx - left_of edges d idx) * pos_of (used_slope interp dens d idx) u.
Lemma grid_core ord ea edges dens mass sdens smass m : is_argsort ord -> grid_case ea edges dens mass sdens smass m -> 0 < total m ->
  exists G, Sample_Grid ord ea dens mass sdens smass = Ok G
  /\ forall interp : bool, (interp = true -> 0 < total dens) -> exists the_bin : R -> list nat,
     (forall u0, 0 <= u0 < 1 -> inb (bin_shape edges) (the_bin u0))
  /\ (forall d c u0 u, (d < length edges)%nat -> (forall k, 0 <= c k < 1) -> 0 <= u0 < 1 -> 0 <= u < 1 -> one_draw G interp d c u0 u = draw_pos interp edges dens d (the_bin u0) u)
  /\ forall L : list nat -> R, is_RInt (fun u0 => L (the_bin u0)) 0 1 (asum (bin_shape edges) (fun idx => at_ m idx / total m * L idx)).
Proof.
  intros Ho Hcase HT. assert (Hcase' := Hcase). destruct Hcase' as (Hea & Hg & Hs & Hdn & Hm & Hmn & Hsd & Hsm).
  destruct (sampler_spec ord ea edges dens mass sdens smass m Ho Hcase HT) as (G & E & E1 & E2 & E3 & E4 & E5 & E6 & E7 & HR). exists G. split; [exact E|].
  destruct (built_facts ord m _ _ Ho Hmn HT E7) as (F1 & F2 & F3 & F4 & F5). cbv zeta in F1, F2, F3, F4, F5.
  pose proof (mass_shape _ _ _ _ Hg Hs Hm) as SM.
  assert (Lm : length (flatten_nd m) = size_of_shape (bin_shape edges)) by (rewrite flatten_length, SM; reflexivity).
  intros interp HDens.
  assert (SP : (0 < size_of_shape (shp dens))%nat) by (apply size_pos; intros k Hk; rewrite Hs in Hk; apply (good_len _ Hg) in Hk; lia).
  set (lo := fun idx => lo_of (g_idx G) (g_csum G) (ravel (bin_shape edges) idx)). set (hi := fun idx => hi_of (g_idx G) (g_csum G) (ravel (bin_shape edges) idx)).
  set (the_bin := fun u0 => unravel (bin_shape edges) (match random_bin (g_idx G) (g_csum G) u0 with Ok b => b | Err _ => O end)).
  assert (HV : forall d c u0 u, (forall k, 0 <= c k < 1) -> 0 <= u0 < 1 -> 0 <= u < 1 -> inb (bin_shape edges) (the_bin u0) /\ ((d < length edges)%nat -> one_draw G interp d c u0 u = draw_pos interp edges dens d (the_bin u0) u)).
  { intros d c u0 u Hc Hu0 Hu. assert (HU : unit_draws (length edges) 1 (the_rand d c u0 u)).
    { intros k j _ _. unfold the_rand. destruct k as [|k]; [exact Hu0|]. destruct (Nat.eq_dec k d); [exact Hu|apply Hc]. }
    destruct (HR (Some 1) interp None (the_rand d c u0 u) 1%nat (wants_1 m) HU) as (vals & sc & bin & R1 & _ & R3 & _). destruct (R3 O ltac:(lia)) as (Hi & Hb & Hv).
    cbn [map seq np_sort fold_right insert_val nth] in Hb. change (the_rand d c u0 u 0%nat 0%nat) with u0 in Hb.
    assert (EB : the_bin u0 = bin O) by (unfold the_bin; rewrite Hb; apply ravel_unravel, Hi). rewrite EB. split; [exact Hi|]. intros Hd.
    unfold one_draw. fold (the_rand d c u0 u). rewrite R1, (Hv d Hd). cbv zeta. unfold draw_pos. fold (left_of edges d (bin O)) (right_of edges d (bin O)). f_equal. f_equal.
    assert (EU : the_rand d c u0 u (S d) 0%nat = u) by (unfold the_rand; destruct (Nat.eq_dec d d); [reflexivity|contradiction]). rewrite EU. unfold pos_of. destruct interp.
    - apply slope_used; [|exact SP|apply HDens; reflexivity]. rewrite Hs, map_length. apply inb_length in Hi. unfold bin_shape in Hi. rewrite map_length in Hi. exact Hi.
    - cbn [used_slope]. destruct (Req_EM_T 0 0) as [_|X]; [reflexivity|contradiction X; reflexivity]. }
  assert (HV0 : forall u0, 0 <= u0 < 1 -> inb (bin_shape edges) (the_bin u0)) by (intros u0 H; apply (HV O (fun _ => 0) u0 0); try (intros _); lra).
  exists the_bin. split; [exact HV0|]. split; [intros d c u0 u Hd Hc Hu0 Hu; apply (HV d c u0 u Hc Hu0 Hu); exact Hd|].
  intros L. rewrite asum_list. apply (is_RInt_ext (fun u0 => sumf (fun idx => inside_step (lo idx) (hi idx) (L idx) u0) (all_idx (bin_shape edges)))).
  - intros u0 Hu0. rewrite Rmin_left, Rmax_right in Hu0 by lra. assert (Hi := HV0 u0 ltac:(lra)).
    assert (IF : forall idx, inb (bin_shape edges) idx -> (random_bin (g_idx G) (g_csum G) u0 = Ok (ravel (bin_shape edges) idx) <-> lo idx < u0 <= hi idx)).
    { intros idx Hi'. apply (bin_iff (flatten_nd m)); try assumption; [lra|]. rewrite Lm. apply ravel_lt, Hi'. }
    assert (EB : random_bin (g_idx G) (g_csum G) u0 = Ok (ravel (bin_shape edges) (the_bin u0))).
    { destruct (bin_total (flatten_nd m) _ _ F1 F2 F3 F4 F5 u0 ltac:(lra)) as (b & Hb & Eb). unfold the_bin. rewrite Eb. rewrite Lm in Hb. destruct (unravel_inb _ _ Hb) as [_ Er]. rewrite Er. reflexivity. }
    rewrite (sumf_one _ (the_bin u0)); [|apply all_idx_NoDup|apply inb_all_idx; exact Hi|].
    + apply IF in EB; [|exact Hi]. unfold inside_step. destruct (Rlt_dec (lo (the_bin u0)) u0); [|lra]. destruct (Rle_dec u0 (hi (the_bin u0))); [reflexivity|lra].
    + intros idx Hin Hne. apply inb_all_idx in Hin. unfold inside_step. destruct (Rlt_dec (lo idx) u0) as [A|A]; [|reflexivity]. destruct (Rle_dec u0 (hi idx)) as [B|B]; [|reflexivity]. exfalso.
      assert (X := proj2 (IF idx Hin) (conj A B)). rewrite EB in X. injection X as X. apply Hne. apply (f_equal (unravel (bin_shape edges))) in X. rewrite !ravel_unravel in X by assumption. symmetry. exact X.
  - apply RInt_sumf. intros idx Hin. apply inb_all_idx in Hin. destruct (lo_hi (flatten_nd m) (g_idx G) (g_csum G) F1 F2 F3 F4 F5 (ravel (bin_shape edges) idx)) as (A & B & C); [rewrite Lm; apply ravel_lt, Hin|].
    assert (EW : at_ m idx / total m = hi idx - lo idx). { unfold hi, lo. rewrite C. rewrite <- SM in Hin |- *. rewrite flatten_nth by exact Hin. unfold total. rewrite asum_flat. reflexivity. }
    rewrite EW. apply RInt_step; assumption.
Qed.
Lemma draw_law interp edges dens d idx h : good_edges edges -> inb (bin_shape edges) idx -> (d < length edges)%nat -> (forall x, continuous h x) ->
  let l := RInt (fun u => h (draw_pos interp edges dens d idx u)) 0 1 in
  is_RInt (fun u => h (draw_pos interp edges dens d idx u)) 0 1 l /\ bin_mean (left_of edges d idx) (right_of edges d idx) (used_slope interp dens d idx) h l.
Proof.
  intros Hg Hi Hd Hh l. destruct (pos_law (left_of edges d idx) (right_of edges d idx) (used_slope interp dens d idx) h (bin_ends edges d idx Hg Hi Hd) Hh) as (l' & H1 & H2).
  assert (EL : l = l') by (apply (is_RInt_unique (V := R_CompleteNormedModule)); exact H1). rewrite EL. split; assumption.
Qed.
Theorem grid_law ord ea edges dens mass sdens smass m : is_argsort ord -> grid_case ea edges dens mass sdens smass m -> 0 < total m ->
  exists G, Sample_Grid ord ea dens mass sdens smass = Ok G
  /\ forall (interp : bool) d h c, (d < length edges)%nat -> (interp = true -> 0 < total dens) -> (forall x, continuous h x) -> (forall k, 0 <= c k < 1) ->
     exists (I : R -> R) (L : list nat -> R), (forall u0, 0 <= u0 < 1 -> is_RInt (fun u => h (one_draw G interp d c u0 u)) 0 1 (I u0))
       /\ is_RInt I 0 1 (asum (bin_shape edges) (fun idx => at_ m idx / total m * L idx))
       /\ forall idx, inb (bin_shape edges) idx -> bin_mean (left_of edges d idx) (right_of edges d idx) (used_slope interp dens d idx) h (L idx).
Proof.
  intros Ho Hcase HT. destruct (grid_core ord ea edges dens mass sdens smass m Ho Hcase HT) as (G & E & HG). exists G. split; [exact E|]. destruct Hcase as (_ & Hg & _).
  intros interp d h c Hd HDens Hh Hc. destruct (HG interp HDens) as (the_bin & H1 & H2 & H3). set (L := fun idx => RInt (fun u => h (draw_pos interp edges dens d idx u)) 0 1).
  exists (fun u0 => L (the_bin u0)), L. split; [|split; [apply H3|intros idx Hi; apply (draw_law interp edges dens d idx h Hg Hi Hd Hh)]].
  intros u0 Hu0. destruct (draw_law interp edges dens d (the_bin u0) h Hg (H1 u0 Hu0) Hd Hh) as [H _]. cbv zeta in H. fold (L (the_bin u0)) in H. eapply is_RInt_ext; [|exact H].
  intros u Hu. rewrite Rmin_left, Rmax_right in Hu by lra. cbv beta. rewrite (H2 d c u0 u Hd Hc Hu0 ltac:(lra)). reflexivity.
Qed.
(** A coordinate depends on the random number for the bin and its own one only, so within a bin the coordinates are independent. *)
Theorem grid_joint ord ea edges dens mass sdens smass m : is_argsort ord -> grid_case ea edges dens mass sdens smass m -> 0 < total m ->
  exists G, Sample_Grid ord ea dens mass sdens smass = Ok G
  /\ forall (interp : bool) (h : nat -> R -> R) c, (interp = true -> 0 < total dens) -> (forall d x, continuous (h d) x) -> (forall k, 0 <= c k < 1) ->
     (forall d c' u0 u, (d < length edges)%nat -> (forall k, 0 <= c' k < 1) -> 0 <= u0 < 1 -> 0 <= u < 1 -> one_draw G interp d c' u0 u = one_draw G interp d c u0 u)
     /\ exists (I : nat -> R -> R) (L : nat -> list nat -> R), (forall d u0, (d < length edges)%nat -> 0 <= u0 < 1 -> is_RInt (fun u => h d (one_draw G interp d c u0 u)) 0 1 (I d u0))
       /\ is_RInt (fun u0 => rprod (length edges) (fun d => I d u0)) 0 1 (asum (bin_shape edges) (fun idx => at_ m idx / total m * rprod (length edges) (fun d => L d idx)))
       /\ forall d idx, (d < length edges)%nat -> inb (bin_shape edges) idx -> bin_mean (left_of edges d idx) (right_of edges d idx) (used_slope interp dens d idx) (h d) (L d idx).
Proof.
  intros Ho Hcase HT. destruct (grid_core ord ea edges dens mass sdens smass m Ho Hcase HT) as (G & E & HG). exists G. split; [exact E|]. destruct Hcase as (_ & Hg & _).
  intros interp h c HDens Hh Hc. destruct (HG interp HDens) as (the_bin & H1 & H2 & H3). split; [intros d c' u0 u Hd Hc' Hu0 Hu; rewrite !H2 by assumption; reflexivity|].
  set (L := fun d idx => RInt (fun u => h d (draw_pos interp edges dens d idx u)) 0 1).
  exists (fun d u0 => L d (the_bin u0)), L. split; [|split; [apply (H3 (fun idx => rprod (length edges) (fun d => L d idx)))|intros d idx Hd Hi; apply (draw_law interp edges dens d idx (h d) Hg Hi Hd (Hh d))]].
  intros d u0 Hd Hu0. destruct (draw_law interp edges dens d (the_bin u0) (h d) Hg (H1 u0 Hu0) Hd (Hh d)) as [H _]. cbv zeta in H. fold (L d (the_bin u0)) in H. eapply is_RInt_ext; [|exact H].
  intros u Hu. rewrite Rmin_left, Rmax_right in Hu by lra. cbv beta. rewrite (H2 d c u0 u Hd Hc Hu0 ltac:(lra)). reflexivity.
Qed.

(** * Order *)
Theorem grid_order ord ea edges dens mass sdens smass m nsamp interp rs rand n : is_argsort ord -> grid_case ea edges dens mass sdens smass m -> 0 < total m ->
  wants nsamp m n -> unit_draws (length edges) n rand -> (forall j, (j < n)%nat -> 0 < rand 0%nat j) ->
  exists G vals sc (bin : nat -> list nat), Sample_Grid ord ea dens mass sdens smass = Ok G /\ sg_sample G nsamp interp rs rand = Ok (vals, sc)
  /\ (forall j, (j < n)%nat -> inb (bin_shape edges) (bin j) /\ in_bin edges (bin j) (column vals j))
  /\ forall i j, (i <= j < n)%nat -> at_ m (bin i) <= at_ m (bin j).
Proof.
  intros Ho Hcase HT Hn Hr Hpos. assert (Hcase' := Hcase). destruct Hcase' as (Hea & Hg & Hs & Hdn & Hm & Hmn & Hsd & Hsm).
  destruct (sampler_spec ord ea edges dens mass sdens smass m Ho Hcase HT) as (G & E & E1 & E2 & E3 & E4 & E5 & E6 & E7 & HR).
  destruct (built_facts ord m _ _ Ho Hmn HT E7) as (F1 & F2 & F3 & F4 & F5). cbv zeta in F1, F2, F3, F4, F5.
  pose proof (mass_shape _ _ _ _ Hg Hs Hm) as SM.
  assert (Lm : length (flatten_nd m) = size_of_shape (bin_shape edges)) by (rewrite flatten_length, SM; reflexivity).
  destruct (HR nsamp interp rs rand n Hn Hr) as (vals & sc & bin & R1 & R2 & R3 & _). exists G, vals, sc, bin. split; [exact E|]. split; [exact R1|]. split.
  - intros j Hj. destruct (R3 j Hj) as (Hi & _ & Hv). split; [exact Hi|]. intros d Hd. rewrite Hv by exact Hd. cbv zeta. destruct (bin_edge _ _ _ Hg Hi Hd) as [_ Lt]. apply in_bin_affine; [exact Lt|].
    pose proof (Hr (S d) j ltac:(lia) Hj). destruct interp; [apply pos_unit; lra|lra].
  - set (us := np_sort (map (rand 0%nat) (seq 0 n))) in *.
    assert (HU : forall j, (j < n)%nat -> 0 < nth j us 0 <= 1). { intros j Hj. destruct (sorted_draw _ _ _ j Hr Hj) as (k & Hk & Eu & Hu). unfold us. rewrite Eu. pose proof (Hpos k Hk). lra. }
    assert (HK : forall j, (j < n)%nat -> exists k, (k < length (flatten_nd m))%nat /\ vget (g_csum G) k < nth j us 0 <= vget (g_csum G) (S k) /\ at_ m (bin j) = vget (flatten_nd m) (nth k (g_idx G) 0%nat)).
    { intros j Hj. destruct (bin_exists (flatten_nd m) _ _ F2 F3 F4 F5 (nth j us 0) (HU j Hj)) as (k & Hk & Hku). exists k. split; [exact Hk|]. split; [exact Hku|].
      destruct (R3 j Hj) as (Hi & Hb & _). rewrite (bin_between (flatten_nd m) _ _ F1 F2 F3 F4 F5 _ k (proj1 (HU j Hj)) Hk Hku) in Hb. injection Hb as Hb. rewrite Hb, <- SM. rewrite flatten_nth by (rewrite SM; exact Hi). reflexivity. }
    intros i j [Hij Hj]. destruct (HK i ltac:(lia)) as (k & Hk & Hku & ->). destruct (HK j Hj) as (k' & Hk' & Hku' & ->).
    assert (HN : nth i us 0 <= nth j us 0). { apply (np_sort_spec (map (rand 0%nat) (seq 0 n))); [exact Hij|]. rewrite np_sort_length, map_length, seq_length. exact Hj. }
    assert (Hkk : (k <= k')%nat). { destruct (le_lt_dec k k') as [A|A]; [exact A|exfalso]. pose proof (cs_mono (flatten_nd m) _ _ F1 F2 F4 F5 (S k') k ltac:(lia) ltac:(lia)). lra. }
    destruct (cum_values ord m _ _ Ho E7) as (_ & Ei & _ & Li & _). destruct (Ho (flatten_nd m)) as [_ Hnd]. rewrite <- Ei in Hnd.
    assert (B := Hnd k k' Hkk ltac:(rewrite map_length; lia)). rewrite !(nth_map _ _ _ _ 0%nat) in B by lia. exact B.
Qed.

(** * What is never drawn *)
Lemma pos_reach g u : 0 <= u <= 1 -> reach_lo g <= pos_of g u <= reach_hi g.
Proof.
  intros Hu. unfold pos_of. destruct (Req_EM_T g 0) as [->|E]; [unfold reach_lo, reach_hi; destruct (Rle_dec 0 2); [|lra]; destruct (Rle_dec (-2) 0); lra|].
  assert (X : Rabs (1 - g / 2) <= sqrt (2 * u * g + (1 - g / 2) ^ 2) <= Rabs (1 + g / 2) \/ Rabs (1 + g / 2) <= sqrt (2 * u * g + (1 - g / 2) ^ 2) <= Rabs (1 - g / 2)).
  { rewrite <- !sqrt_Rsqr_abs. unfold Rsqr. destruct (Rle_dec 0 g) as [P|P]; [left|right]; split; apply sqrt_le_1_alt; nra. }
  set (r := sqrt (2 * u * g + (1 - g / 2) ^ 2)) in *. assert (Y : (0 < g /\ Rabs (1 - g / 2) <= r <= Rabs (1 + g / 2)) \/ (g < 0 /\ Rabs (1 + g / 2) <= r <= Rabs (1 - g / 2))).
  { destruct (Rlt_dec 0 g) as [P|P]; [left|right]; (split; [lra|]); destruct X as [X|X]; try exact X.
    - assert (Rabs (1 - g / 2) <= Rabs (1 + g / 2)); [|lra]. rewrite (Rabs_pos_eq (1 + g / 2)) by lra. apply Rabs_le. lra.
    - assert (Rabs (1 + g / 2) <= Rabs (1 - g / 2)); [|lra]. rewrite (Rabs_pos_eq (1 - g / 2)) by lra. apply Rabs_le. lra. }
  clear X. unfold root_pos. fold r. unfold reach_lo, reach_hi.
  destruct Y as [[P Y]|[P Y]].
  - destruct (Rle_dec (-2) g); [|lra]. rewrite (Rabs_pos_eq (1 + g / 2)) in Y by lra. pose proof (Rle_abs (1 - g / 2)). pose proof (Rle_abs (- (1 - g / 2))). rewrite Rabs_Ropp in *.
    assert (Q : (r - (1 - g / 2)) / g * g = r - (1 - g / 2)) by (field; lra). set (q := (r - (1 - g / 2)) / g) in *.
    split; [|apply (Rmult_le_reg_r g); lra]. apply (Rmult_le_reg_r g); [exact P|]. destruct (Rle_dec g 2); [lra|]. replace ((1 - 2 / g) * g) with (g - 2) by (field; lra). lra.
  - destruct (Rle_dec g 2); [|lra]. rewrite (Rabs_pos_eq (1 - g / 2)) in Y by lra. pose proof (Rle_abs (1 + g / 2)). pose proof (Rle_abs (- (1 + g / 2))). rewrite Rabs_Ropp in *.
    replace ((r - (1 - g / 2)) / g) with ((1 - g / 2 - r) / (- g)) by (field; lra).
    split; [apply Rdiv_le_0_compat; lra|]. apply (Rmult_le_reg_r (- g)); [lra|]. replace ((1 - g / 2 - r) / (- g) * (- g)) with (1 - g / 2 - r) by (field; lra).
    destruct (Rle_dec (-2) g); [lra|]. replace (- 2 / g * - g) with 2 by (field; lra). lra.
Qed.
Theorem grid_reach ord ea edges dens mass sdens smass m nsamp rs rand n : is_argsort ord -> grid_case ea edges dens mass sdens smass m -> 0 < total m -> 0 < total dens ->
  wants nsamp m n -> unit_draws (length edges) n rand ->
  exists G vals sc, Sample_Grid ord ea dens mass sdens smass = Ok G /\ sg_sample G nsamp true rs rand = Ok (vals, sc)
  /\ forall j, (j < n)%nat -> exists idx, inb (bin_shape edges) idx /\ 0 < at_ m idx /\ forall d, (d < length edges)%nat ->
     let a := left_of edges d idx in let b := right_of edges d idx in let g := used_slope true dens d idx in
     a + (b - a) * reach_lo g <= column vals j d <= a + (b - a) * reach_hi g.
Proof.
  intros Ho Hcase HT HD Hn Hr. assert (Hcase' := Hcase). destruct Hcase' as (Hea & Hg & Hs & Hdn & Hm & Hmn & Hsd & Hsm).
  destruct (sampler_spec ord ea edges dens mass sdens smass m Ho Hcase HT) as (G & E & E1 & E2 & E3 & E4 & E5 & E6 & E7 & HR).
  destruct (HR nsamp true rs rand n Hn Hr) as (vals & sc & bin & R1 & R2 & R3 & _). exists G, vals, sc. split; [exact E|]. split; [exact R1|].
  pose proof (mass_shape _ _ _ _ Hg Hs Hm) as SM.
  assert (SP : (0 < size_of_shape (shp dens))%nat) by (apply size_pos; intros k Hk; rewrite Hs in Hk; apply (good_len _ Hg) in Hk; lia).
  intros j Hj. destruct (R3 j Hj) as (Hi & Hb & Hv). exists (bin j). split; [exact Hi|]. split.
  - destruct (sorted_draw _ _ _ j Hr Hj) as (k & Hk & Eu & Hu). rewrite Eu in Hb. destruct (built_bin ord m _ _ Ho Hmn HT E7 (rand 0%nat k) ltac:(lra)) as (b & Hbl & Eb & Hp).
    rewrite Eb in Hb. injection Hb as ->. rewrite <- SM in Hp, Hi. rewrite flatten_nth in Hp by exact Hi. exact Hp.
  - intros d Hd. cbv zeta. rewrite (Hv d Hd). cbv zeta. rewrite slope_used; [|rewrite Hs, map_length; apply inb_length in Hi; unfold bin_shape in Hi; rewrite map_length in Hi; exact Hi|exact SP|exact HD].
    cbv zeta. fold (pos_of (used_slope true dens d (bin j)) (rand (S d) j)). fold (left_of edges d (bin j)) (right_of edges d (bin j)).
    pose proof (Hr (S d) j ltac:(lia) Hj) as Hu. pose proof (pos_reach (used_slope true dens d (bin j)) (rand (S d) j) ltac:(lra)) as Hp. pose proof (bin_ends edges d (bin j) Hg Hi Hd). split; apply Rplus_le_compat_l, Rmult_le_compat_l; lra.
Qed.

(** * Means within a bin *)
Lemma bin_total_one a b g : a < b -> bin_mean a b g (fun _ => 1) 1.
Proof.
  intros Hab. apply bin_shift; [exact Hab|]. destruct (reach_cdf g) as [E0 E1].
  set (F := fun x => (1 - g / 2) * x + g * x ^ 2 / 2). assert (D : is_RInt (fun x => 1 * (1 - g / 2 + g * x)) (reach_lo g) (reach_hi g) (minus (F (reach_hi g)) (F (reach_lo g)))).
  { apply (is_RInt_derive F).
    - intros x _. unfold F. auto_derive; [trivial|field].
    - intros x _. apply (ex_derive_continuous (fun x => 1 * (1 - g / 2 + g * x))). auto_derive. trivial. }
  assert (EE : minus (F (reach_hi g)) (F (reach_lo g)) = 1) by (unfold F; rewrite E0, E1; unfold minus, plus, opp; cbn; ring). rewrite EE in D. exact D.
Qed.
Lemma bin_centre a b g l : a < b -> Rabs g <= 2 -> bin_mean a b g (fun x => x) l -> l = a + (b - a) * (1 / 2 + g / 12).
Proof.
  intros Hab Hg H. apply Rabs_le_between in Hg. refine (eq_trans (eq_sym (is_RInt_unique (V := R_CompleteNormedModule) _ _ _ _ H)) _). apply (is_RInt_unique (V := R_CompleteNormedModule)). apply bin_shift; [exact Hab|].
  unfold reach_lo, reach_hi. destruct (Rle_dec g 2); [|lra]. destruct (Rle_dec (-2) g); [|lra].
  set (F := fun x => a * ((1 - g / 2) * x + g * x ^ 2 / 2) + (b - a) * ((1 - g / 2) * x ^ 2 / 2 + g * x ^ 3 / 3)).
  assert (D : is_RInt (fun x => (a + (b - a) * x) * (1 - g / 2 + g * x)) 0 1 (minus (F 1) (F 0))).
  { apply (is_RInt_derive F).
    - intros x _. unfold F. auto_derive; [trivial|field].
    - intros x _. apply (ex_derive_continuous (fun x => (a + (b - a) * x) * (1 - g / 2 + g * x))). auto_derive. trivial. }
  assert (EE : minus (F 1) (F 0) = a + (b - a) * (1 / 2 + g / 12)) by (unfold minus, plus, opp, F; cbn; field). rewrite EE in D. exact D.
Qed.

(** * A grid with a part that is never drawn *)
Lemma peak_case : exists m, grid_case (EFlat [0; 1; 2; 3; 4]) [[0; 1; 2; 3; 4]] (vec [1; 9; 1; 1; 1]) None None None m /\ shp m = [4%nat] /\ 0 < total m.
Proof.
  assert (Hg : good_edges [[0; 1; 2; 3; 4]]). { split; [discriminate|]. intros e [<-|[]]. split; [cbn; lia|]. intros i j Hij Hj. cbn in Hj. destruct i as [|[|[|[|[|i]]]]]; destruct j as [|[|[|[|[|j]]]]]; try lia; cbn; lra. }
  destruct (mass_run (vec [1; 9; 1; 1; 1]) [[0; 1; 2; 3; 4]] eq_refl (good_ne _ Hg)) as (m & E & S & V).
  assert (V0 : at_ m [0%nat] = 5) by (rewrite V by (repeat constructor); unfold avg_corners; cbn; lra).
  assert (V1 : at_ m [1%nat] = 5) by (rewrite V by (repeat constructor); unfold avg_corners; cbn; lra).
  assert (V2 : at_ m [2%nat] = 1) by (rewrite V by (repeat constructor); unfold avg_corners; cbn; lra).
  assert (V3 : at_ m [3%nat] = 1) by (rewrite V by (repeat constructor); unfold avg_corners; cbn; lra).
  exists m. split; [|split; [exact S|]]. 2: { unfold total. change (shp m = [4%nat]) in S. rewrite S. cbn [asum rsum]. rewrite V0, V1, V2, V3. lra. }
  split; [right; eexists; split; reflexivity|]. split; [exact Hg|]. split; [reflexivity|].
  split; [apply vec_nonneg; cbn; intros x H; repeat (destruct H as [<-|H]; [lra|]); contradiction|]. split; [exact E|]. split; [|split; intros ? C; discriminate C].
  intros idx Hi. rewrite S in Hi. cbn in Hi. inversion Hi as [|i n idx' sh' Hlt Hr]; subst. inversion Hr; subst. destruct i as [|[|[|[|i]]]]; [rewrite V0|rewrite V1|rewrite V2|rewrite V3|lia]; lra.
Qed.
Theorem never_drawn : exists ord e ys, is_argsort ord /\ incr_list e /\ length e = length ys /\ nth 0 e 0 = 0 /\ (forall y, In y ys -> 0 < y)
  /\ forall nsamp rs rand n, nsamp = Some (INR n) -> unit_draws 1 n rand ->
     exists G vals sc, Sample_Grid ord (EFlat e) (vec ys) None None None = Ok G /\ sg_sample G nsamp true rs rand = Ok (vals, sc)
     /\ forall j, (j < n)%nat -> 7 / 20 <= column vals j 0.
Proof.
  destruct peak_case as (m & Hc & S & T). exists some_argsort, [0; 1; 2; 3; 4], [1; 9; 1; 1; 1]. split; [apply some_argsort_ok|].
  split; [destruct Hc as (_ & [_ Hg] & _); apply Hg; left; reflexivity|]. split; [reflexivity|]. split; [reflexivity|]. split; [cbn; intros x H; repeat (destruct H as [<-|H]; [lra|]); contradiction|].
  intros nsamp rs rand n -> Hr. assert (TD : total (vec [1; 9; 1; 1; 1]) = 13) by (unfold total; cbn; lra).
  destruct (grid_reach some_argsort _ _ _ _ _ _ m (Some (INR n)) rs rand n some_argsort_ok Hc T ltac:(rewrite TD; lra) ltac:(unfold wants; lra) Hr) as (G & vals & sc & E & R & H).
  exists G, vals, sc. split; [exact E|]. split; [exact R|]. intros j Hj. destruct (H j Hj) as (idx & Hi & _ & Hv). specialize (Hv 0%nat ltac:(cbn; lia)). cbv zeta in Hv.
  inversion Hi as [|i k idx' sh' Hlt Hr']; subst. inversion Hr'; subst. cbn in Hlt. pose proof (reach_order (used_slope true (vec [1; 9; 1; 1; 1]) 0 [i])) as HO.
  unfold left_of, right_of in Hv. destruct i as [|[|[|[|i]]]]; [|cbn [nth] in Hv; lra..|lia].
  assert (EG : used_slope true (vec [1; 9; 1; 1; 1]) 0 [0%nat] = 40 / 13).
  { assert (EE : rel_slope (vec [1; 9; 1; 1; 1]) 0 [0%nat] = 40 / 13) by (unfold rel_slope; rewrite TD; unfold side_mean; cbn; field). unfold used_slope. rewrite EE.
    destruct (Rlt_dec (/ 10 ^ 16) (Rabs (40 / 13))) as [X|X]; [reflexivity|]. exfalso. apply X. rewrite Rabs_pos_eq by lra. apply (Rlt_trans _ 1); [|lra]. rewrite <- Rinv_1. apply Rinv_lt_contravar; [|]; lra. }
  rewrite EG in Hv. unfold reach_lo in Hv. destruct (Rle_dec (40 / 13) 2); [lra|]. cbn [nth] in Hv. lra.
Qed.

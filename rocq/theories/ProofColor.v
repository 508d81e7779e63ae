(** Proofs about colours. *)
From Coq Require Import ZArith Lia Lra.
From Verif Require Import Base ModelColor SpecColor.
Open Scope R_scope.

Lemma int_part_is x z : IZR z <= x < IZR z + 1 -> Int_part x = z.
Proof.
  intros [H1 H2]. destruct (base_Int_part x) as [A B]. assert (L1 : IZR (Int_part x) < IZR (z + 1)) by (rewrite plus_IZR; lra). assert (L2 : IZR z < IZR (Int_part x + 1)) by (rewrite plus_IZR; lra).
  apply lt_IZR in L1. apply lt_IZR in L2. lia.
Qed.
Lemma mod_one_at H z : IZR z <= H / 6 < IZR z + 1 -> mod_one (H / 6) * 6 = H - 6 * IZR z.
Proof. intros B. unfold mod_one. rewrite (int_part_is _ z B). field. Qed.
Lemma hsv_at h i f s v : h * 6 = IZR i + f -> 0 <= f < 1 -> s <> 0 -> hsv_to_rgb (h, s, v) =
  match (i mod 6)%Z with
  | 0%Z => mkRGB v (v * (1 - s * (1 - f))) (v * (1 - s))
  | 1%Z => mkRGB (v * (1 - s * f)) v (v * (1 - s))
  | 2%Z => mkRGB (v * (1 - s)) v (v * (1 - s * (1 - f)))
  | 3%Z => mkRGB (v * (1 - s)) (v * (1 - s * f)) v
  | 4%Z => mkRGB (v * (1 - s * (1 - f))) (v * (1 - s)) v
  | _ => mkRGB v (v * (1 - s)) (v * (1 - s * f))
  end.
Proof.
  intros Hh Hf Hs. unfold hsv_to_rgb. rewrite (int_part_is (h * 6) i) by (rewrite Hh; lra). replace (h * 6 - IZR i) with f by lra.
  destruct (Reqb_spec s 0); [contradiction|]. reflexivity.
Qed.
Definition cmax (c : rgb) : R := Rmax (c_r c) (Rmax (c_g c) (c_b c)).
Definition cmin (c : rgb) : R := Rmin (c_r c) (Rmin (c_g c) (c_b c)).
Definition stretched (c : rgb) (S V x : R) : R := V * (1 - S * (1 - (x - cmin c) / (cmax c - cmin c))).
Lemma hue_rgb c S V : S <> 0 -> cmin c < cmax c -> hsv_to_rgb (fst (fst (rgb_to_hsv c)), S, V) = map_rgb (stretched c S V) c.
Proof.
  intros HS Hd. unfold rgb_to_hsv. fold (cmax c) (cmin c). cbv zeta. cbn [fst].
  destruct (Rltb_spec 0 (cmax c - cmin c)) as [_|N]; [|lra]. unfold stretched, map_rgb. set (v := cmax c) in *. set (u := cmin c) in *. set (d := v - u). assert (D : 0 < d) by (unfold d; lra).
  assert (B : u <= c_r c <= v /\ u <= c_g c <= v /\ u <= c_b c <= v).
  { unfold u, v, cmin, cmax. unfold Rmax, Rmin. repeat destruct (Rle_dec _ _); lra. }
  assert (MX : v = c_r c \/ v = c_g c \/ v = c_b c) by (unfold v, cmax, Rmax; repeat destruct (Rle_dec _ _); auto).
  assert (MN : u = c_r c \/ u = c_g c \/ u = c_b c) by (unfold u, cmin, Rmin; repeat destruct (Rle_dec _ _); auto).
  clearbody u v. destruct c as [r g b]. cbn [c_r c_g c_b] in *.
  assert (F : forall x, 0 <= x <= d -> 0 <= x / d <= 1).
  { intros x [X1 X2]. split; [apply Rmult_le_pos; [lra|left; apply Rinv_0_lt_compat, D]|]. apply Rmult_le_reg_r with d; [exact D|]. unfold Rdiv. rewrite Rmult_assoc, Rinv_l by lra. lra. }
  assert (FS : forall x, 0 <= x < d -> 0 <= x / d < 1).
  { intros x [X1 X2]. split; [apply F; lra|]. apply Rmult_lt_reg_r with d; [exact D|]. unfold Rdiv. rewrite Rmult_assoc, Rinv_l by lra. lra. }
  assert (FP : forall x, 0 < x <= d -> 0 < x / d <= 1) by (intros x X; split; [apply Rdiv_lt_0_compat; lra|apply F; lra]).
  assert (E1 : d / d = 1) by (field; lra). assert (E0 : 0 / d = 0) by (unfold Rdiv; ring).
  destruct (Reqb_spec b v) as [Eb|Nb].
  { destruct (Rle_dec g r) as [L|L].
    - assert (Eu : u = g) by lra. destruct (Req_dec r v) as [Er|Nr].
      + assert (HH : (r - g) / d = 1) by (replace (r - g) with d by (unfold d; lra); exact E1). rewrite HH.
        rewrite (hsv_at _ 5 0 S V); [|rewrite (mod_one_at _ 0) by lra; lra|lra|exact HS]. cbn. replace (r - u) with d by (unfold d; lra). replace (g - u) with 0 by lra. replace (b - u) with d by (unfold d; lra). fold d. rewrite E1, E0. f_equal; ring.
      + pose proof (FS (r - g) ltac:(unfold d; lra)) as Q. set (f := (r - g) / d) in *.
        rewrite (hsv_at _ 4 f S V); [|rewrite (mod_one_at _ 0) by lra; lra|lra|exact HS]. cbn. fold d. replace (r - u) with (r - g) by lra. replace (g - u) with 0 by lra. replace (b - u) with d by (unfold d; lra). fold f. rewrite E1, E0. f_equal; ring.
    - assert (Eu : u = r) by lra. pose proof (FP (g - r) ltac:(unfold d; lra)) as Q. set (e := (g - r) / d) in *. replace ((r - g) / d) with (- e) by (unfold e; field; lra).
      rewrite (hsv_at _ 3 (1 - e) S V); [|rewrite (mod_one_at _ 0) by lra; lra|lra|exact HS]. cbn. fold d. replace (r - u) with 0 by lra. replace (g - u) with (g - r) by lra. replace (b - u) with d by (unfold d; lra). fold e. rewrite E1, E0. f_equal; ring. }
  destruct (Reqb_spec g v) as [Eg|Ng].
  { destruct (Rle_dec r b) as [L|L].
    - assert (Eu : u = r) by lra. pose proof (FS (b - r) ltac:(unfold d; lra)) as Q. set (f := (b - r) / d) in *.
      rewrite (hsv_at _ 2 f S V); [|rewrite (mod_one_at _ 0) by lra; lra|lra|exact HS]. cbn. fold d. replace (r - u) with 0 by lra. replace (g - u) with d by (unfold d; lra). replace (b - u) with (b - r) by lra. fold f. rewrite E1, E0. f_equal; ring.
    - assert (Eu : u = b) by lra. pose proof (FP (r - b) ltac:(unfold d; lra)) as Q. set (e := (r - b) / d) in *. replace ((b - r) / d) with (- e) by (unfold e; field; lra).
      rewrite (hsv_at _ 1 (1 - e) S V); [|rewrite (mod_one_at _ 0) by lra; lra|lra|exact HS]. cbn. fold d. replace (r - u) with (r - b) by lra. replace (g - u) with d by (unfold d; lra). replace (b - u) with 0 by lra. fold e. rewrite E1, E0. f_equal; ring. }
  assert (Er : r = v) by lra. destruct (Rle_dec b g) as [L|L].
  - assert (Eu : u = b) by lra. pose proof (FS (g - b) ltac:(unfold d; lra)) as Q. set (f := (g - b) / d) in *.
    rewrite (hsv_at _ 0 f S V); [|rewrite (mod_one_at _ 0) by lra; lra|lra|exact HS]. cbn. fold d. replace (r - u) with d by (unfold d; lra). replace (g - u) with (g - b) by lra. replace (b - u) with 0 by lra. fold f. rewrite E1, E0. f_equal; ring.
  - assert (Eu : u = g) by lra. pose proof (FP (b - g) ltac:(unfold d; lra)) as Q. set (e := (b - g) / d) in *. replace ((g - b) / d) with (- e) by (unfold e; field; lra).
    rewrite (hsv_at _ 5 (1 - e) S V); [|rewrite (mod_one_at _ (-1)) by lra; lra|lra|exact HS]. cbn. fold d. replace (r - u) with d by (unfold d; lra). replace (g - u) with 0 by lra. replace (b - u) with (b - g) by lra. fold e. rewrite E1, E0. f_equal; ring.
Qed.

(* ------------------------------------------------------------ the stronger colour *)
Lemma interp01_in t a b : 0 <= t <= 1 -> interp01 t a b = a + (b - a) * t.
Proof. intros H. unfold interp01. destruct (Rleb_spec t 0); [replace t with 0 by lra; ring|]. destruct (Rleb_spec 1 t); [replace t with 1 by lra; ring|reflexivity]. Qed.
Lemma cmax_brightest c : brightest c (cmax c).
Proof.
  split; [unfold channels, cmax, Rmax; cbn; repeat destruct (Rle_dec _ _); auto|]. intros x H. unfold cmax, Rmax. cbn in H. repeat destruct (Rle_dec _ _); destruct H as [<-|[<-|[<-|[]]]]; lra.
Qed.
Lemma cmin_faintest c : faintest c (cmin c).
Proof.
  split; [unfold channels, cmin, Rmin; cbn; repeat destruct (Rle_dec _ _); auto|]. intros x H. unfold cmin, Rmin. cbn in H. repeat destruct (Rle_dec _ _); destruct H as [<-|[<-|[<-|[]]]]; lra.
Qed.
Lemma brightest_cmax c v : brightest c v -> v = cmax c.
Proof. intros [H1 H2]. destruct (cmax_brightest c) as [A B]. apply Rle_antisym; [apply B, H1|apply H2, A]. Qed.
Lemma faintest_cmin c u : faintest c u -> u = cmin c.
Proof. intros [H1 H2]. destruct (cmin_faintest c) as [A B]. apply Rle_antisym; [apply H2, A|apply B, H1]. Qed.
Lemma strengthen_colour c v u : valid_rgb c -> brightest c v -> faintest c u -> u < v ->
  strengthen c = map_rgb (fun x => (3 * v + 1) / 4 * (1 - (3 * ((v - u) / v) + 1) / 4 * ((v - x) / (v - u)))) c.
Proof.
  intros HV Hv Hu Huv. pose proof Hv as Hv0. pose proof Hu as Hu0. apply brightest_cmax in Hv. apply faintest_cmin in Hu. subst v u.
  assert (P : 0 <= cmin c) by (apply HV, Hu0). assert (S0 : 0 <= (cmax c - cmin c) / cmax c) by (apply Rmult_le_pos; [lra|left; apply Rinv_0_lt_compat; lra]).
  unfold strengthen. pose proof (hue_rgb c ((3 * ((cmax c - cmin c) / cmax c) + 1) / 4) ((3 * cmax c + 1) / 4) ltac:(lra) Huv) as H.
  replace (rgb_to_hsv c) with (fst (fst (rgb_to_hsv c)), (cmax c - cmin c) / cmax c, cmax c).
  - rewrite !interp01_in by lra. replace ((cmax c - cmin c) / cmax c + (1 - (cmax c - cmin c) / cmax c) * (1 / 4)) with ((3 * ((cmax c - cmin c) / cmax c) + 1) / 4) by (field; lra).
    replace (cmax c + (1 - cmax c) * (1 / 4)) with ((3 * cmax c + 1) / 4) by field. rewrite H.
    assert (E : forall x, stretched c ((3 * ((cmax c - cmin c) / cmax c) + 1) / 4) ((3 * cmax c + 1) / 4) x = (3 * cmax c + 1) / 4 * (1 - (3 * ((cmax c - cmin c) / cmax c) + 1) / 4 * ((cmax c - x) / (cmax c - cmin c)))).
    { intros x. unfold stretched. replace (1 - (x - cmin c) / (cmax c - cmin c)) with ((cmax c - x) / (cmax c - cmin c)) by (field; lra). reflexivity. }
    unfold map_rgb. rewrite !E. reflexivity.
  - unfold rgb_to_hsv at 1. fold (cmax c) (cmin c). cbv zeta. cbn [fst]. unfold rgb_to_hsv. fold (cmax c) (cmin c). cbv zeta. cbn [fst].
    destruct (Rltb_spec 0 (cmax c)); [reflexivity|lra].
Qed.
Lemma strengthen_grey g : 0 <= g <= 1 -> strengthen (grey g) = mkRGB ((3 * g + 1) / 4) (3 / 4 * ((3 * g + 1) / 4)) (3 / 4 * ((3 * g + 1) / 4)).
Proof.
  intros Hg. unfold strengthen, rgb_to_hsv. cbn [grey c_r c_g c_b]. rewrite !(Rmax_left g g), !(Rmin_left g g) by lra. replace (g - g) with 0 by ring.
  destruct (Rltb_spec 0 0) as [H|_]; [lra|]. replace (if Rltb 0 g then 0 / g else 0) with 0 by (destruct (Rltb 0 g); [unfold Rdiv; ring|reflexivity]).
  rewrite !interp01_in by lra. rewrite (hsv_at _ 0 0); [|rewrite (mod_one_at 0 0) by lra; lra|lra|apply Rgt_not_eq; lra]. cbn. f_equal; field.
Qed.
Lemma strengthen_valid c : valid_rgb c -> valid_rgb (strengthen c).
Proof.
  intros HV. destruct (cmax_brightest c) as [M1 M2]. destruct (cmin_faintest c) as [N1 N2]. pose proof (HV _ M1) as VM. pose proof (HV _ N1) as VN.
  destruct (Rlt_dec (cmin c) (cmax c)) as [L|L].
  - rewrite (strengthen_colour c (cmax c) (cmin c) HV (cmax_brightest c) (cmin_faintest c) L).
    assert (S0 : 0 <= (cmax c - cmin c) / cmax c <= 1).
    { split; [apply Rmult_le_pos; [lra|left; apply Rinv_0_lt_compat; lra]|]. apply Rmult_le_reg_r with (cmax c); [lra|]. unfold Rdiv. rewrite Rmult_assoc, Rinv_l by lra. lra. }
    set (S := (3 * ((cmax c - cmin c) / cmax c) + 1) / 4). set (V := (3 * cmax c + 1) / 4). assert (S1 : 0 <= S <= 1) by (unfold S; lra). assert (V1 : 0 <= V <= 1) by (unfold V; lra). clearbody S V.
    assert (G : forall x, In x (channels c) -> 0 <= V * (1 - S * ((cmax c - x) / (cmax c - cmin c))) <= 1).
    { intros x Hx. pose proof (M2 x Hx). pose proof (N2 x Hx).
      assert (Q : 0 <= (cmax c - x) / (cmax c - cmin c) <= 1).
      { split; [apply Rmult_le_pos; [lra|left; apply Rinv_0_lt_compat; lra]|]. apply Rmult_le_reg_r with (cmax c - cmin c); [lra|]. unfold Rdiv. rewrite Rmult_assoc, Rinv_l by lra. lra. }
      assert (Q2 : 0 <= S * ((cmax c - x) / (cmax c - cmin c)) <= 1) by (split; [apply Rmult_le_pos; lra|rewrite <- (Rmult_1_l 1); apply Rmult_le_compat; lra]).
      split; [apply Rmult_le_pos; lra|rewrite <- (Rmult_1_l 1) at 2; apply Rmult_le_compat; lra]. }
    unfold channels in G. intros x Hx. unfold map_rgb, channels in Hx. cbn in Hx. destruct Hx as [<-|[<-|[<-|[]]]]; apply G; cbn; auto.
  - assert (E : c = grey (cmax c)).
    { destruct c as [r g b]. unfold cmax, cmin, Rmax, Rmin, grey in *. cbn [c_r c_g c_b] in *. repeat destruct (Rle_dec _ _); f_equal; lra. }
    rewrite E, strengthen_grey by lra. intros x Hx. cbn in Hx. destruct Hx as [<-|[<-|[<-|[]]]]; lra.
Qed.

(* ------------------------------------------------------------ the colormap *)
Lemma pow_pos_01 x p : 0 <= x <= 1 -> 0 < p -> 0 <= pow_pos x p <= 1.
Proof.
  intros Hx Hp. unfold pow_pos. destruct (Reqb_spec x 0); [lra|]. unfold Rpower. split; [left; apply exp_pos|]. rewrite <- exp_0.
  assert (L : ln x <= 0) by (rewrite <- ln_1; destruct (Req_dec x 1) as [-> |]; [right; reflexivity|left; apply ln_increasing; lra]).
  destruct (Req_dec (p * ln x) 0) as [-> |]; [right; reflexivity|left; apply exp_increasing]. assert (0 <= p * - ln x) by (apply Rmult_le_pos; lra). lra.
Qed.
Lemma colour_dist_01 c x : valid_rgb c -> 0 <= x <= 1 -> 0 <= colour_dist c x <= 1.
Proof.
  intros HV Hx. assert (B : forall y, In y (channels c) -> 0 <= (x - y) * (x - y) <= 1).
  { intros y Hy. pose proof (HV y Hy). split; [apply Rle_0_sqr|]. destruct (Rle_dec y x); [rewrite <- (Rmult_1_l 1); apply Rmult_le_compat; lra|replace ((x - y) * (x - y)) with ((y - x) * (y - x)) by ring; rewrite <- (Rmult_1_l 1); apply Rmult_le_compat; lra]. }
  pose proof (B (c_r c) (or_introl eq_refl)). pose proof (B (c_g c) (or_intror (or_introl eq_refl))). pose proof (B (c_b c) (or_intror (or_intror (or_introl eq_refl)))).
  assert (S3 : 0 < sqrt 3) by (apply sqrt_lt_R0; lra). unfold colour_dist. split; [apply Rmult_le_pos; [apply sqrt_pos|left; apply Rinv_0_lt_compat, S3]|].
  apply Rmult_le_reg_r with (sqrt 3); [exact S3|]. unfold Rdiv. rewrite Rmult_assoc, Rinv_l, Rmult_1_r, Rmult_1_l by lra. apply sqrt_le_1_alt. lra.
Qed.
Lemma lut_pos_01 x : 0 <= lut_pos x <= 1.
Proof.
  unfold lut_pos. assert (0 <= IZR (Z.min 255 (Z.max 0 (Int_part (x * 256)))) <= 255) by (split; [apply (IZR_le 0)|apply (IZR_le _ 255)]; lia). lra.
Qed.
Lemma int_part_le x y : x <= y -> (Int_part x <= Int_part y)%Z.
Proof.
  intros H. destruct (base_Int_part x) as [A B]. destruct (base_Int_part y) as [C D]. assert (L : IZR (Int_part x) < IZR (Int_part y + 1)) by (rewrite plus_IZR; lra). apply lt_IZR in L. lia.
Qed.
Lemma lut_pos_le x y : x <= y -> lut_pos x <= lut_pos y.
Proof.
  intros H. unfold lut_pos. pose proof (int_part_le (x * 256) (y * 256) ltac:(lra)). apply Rmult_le_compat_r; [lra|]. apply IZR_le. lia.
Qed.
Lemma seg3_le lo mid hi s t : hi <= mid <= lo -> s <= t -> seg3 lo mid hi t <= seg3 lo mid hi s.
Proof.
  intros H Hst. assert (A : forall k a b, 0 <= k -> a <= b -> k * a <= k * b) by (intros; apply Rmult_le_compat_l; assumption).
  unfold seg3. destruct (Rleb_spec t (1 / 2)); destruct (Rleb_spec s (1 / 2)); try lra.
  - pose proof (A (lo - mid) s t ltac:(lra) Hst). lra.
  - pose proof (A (lo - mid) s (1 / 2) ltac:(lra) ltac:(lra)). pose proof (A (mid - hi) (1 / 2) t ltac:(lra) ltac:(lra)). lra.
  - pose proof (A (mid - hi) s t ltac:(lra) Hst). lra.
Qed.
(** One component of the colormap. *)
Definition ladder (c : rgb) (l t : R) : R :=
  seg3 (l + (1 - l) * pow_pos (colour_dist c 1) (333 / 1000)) l (l + (0 - l) * pow_pos (colour_dist c 0) (333 / 1000)) t.
Lemma cmap_ladder col x : valid_rgb col -> color_to_cmap col x = map_rgb (fun l => ladder (strengthen col) l (lut_pos x)) (strengthen col).
Proof.
  intros HV. pose proof (strengthen_valid col HV) as HC. unfold color_to_cmap. cbv zeta. set (c := strengthen col) in *.
  pose proof (pow_pos_01 _ (333 / 1000) (colour_dist_01 c 1 HC ltac:(lra)) ltac:(lra)). pose proof (pow_pos_01 _ (333 / 1000) (colour_dist_01 c 0 HC ltac:(lra)) ltac:(lra)).
  unfold from_three, map_rgb, ladder. cbn [c_r c_g c_b]. rewrite !interp01_in by assumption. reflexivity.
Qed.
Lemma ladder_between c l t : valid_rgb c -> 0 <= l <= 1 -> 0 <= t <= 1 -> 0 <= ladder c l t <= 1 /\ (forall s, s <= t -> ladder c l t <= ladder c l s).
Proof.
  intros HC Hl Ht. unfold ladder. pose proof (pow_pos_01 _ (333 / 1000) (colour_dist_01 c 1 HC ltac:(lra)) ltac:(lra)) as P. pose proof (pow_pos_01 _ (333 / 1000) (colour_dist_01 c 0 HC ltac:(lra)) ltac:(lra)) as Q.
  set (a := pow_pos (colour_dist c 1) (333 / 1000)) in *. set (b := pow_pos (colour_dist c 0) (333 / 1000)) in *. clearbody a b.
  assert (A : 0 <= (1 - l) * a <= 1 - l) by (split; [apply Rmult_le_pos; lra|rewrite <- (Rmult_1_r (1 - l)) at 2; apply Rmult_le_compat_l; lra]).
  assert (B : 0 <= l * b <= l) by (split; [apply Rmult_le_pos; lra|rewrite <- (Rmult_1_r l) at 2; apply Rmult_le_compat_l; lra]).
  assert (O3 : l + (0 - l) * b <= l <= l + (1 - l) * a) by lra.
  split; [|intros s Hs; apply seg3_le; assumption].
  pose proof (seg3_le _ _ _ t 1 O3 ltac:(lra)) as U. pose proof (seg3_le _ _ _ 0 t O3 ltac:(lra)) as W.
  assert (S1 : seg3 (l + (1 - l) * a) l (l + (0 - l) * b) 1 = l - l * b) by (unfold seg3; destruct (Rleb_spec 1 (1 / 2)); [lra|ring]).
  assert (S0 : seg3 (l + (1 - l) * a) l (l + (0 - l) * b) 0 = l + (1 - l) * a) by (unfold seg3; destruct (Rleb_spec 0 (1 / 2)); [ring|lra]). lra.
Qed.
Lemma cmap_valid : forall col x, valid_rgb col -> valid_rgb (color_to_cmap col x).
Proof.
  intros col x HV. rewrite cmap_ladder by exact HV. pose proof (strengthen_valid col HV) as HC. intros y Hy. unfold map_rgb, channels in Hy. cbn in Hy.
  destruct Hy as [<-|[<-|[<-|[]]]]; apply ladder_between; try exact HC; try apply lut_pos_01; apply HC; cbn; auto.
Qed.
Lemma cmap_darker : forall col x y, valid_rgb col -> x <= y -> darker (color_to_cmap col x) (color_to_cmap col y).
Proof.
  intros col x y HV Hxy. rewrite !cmap_ladder by exact HV. pose proof (strengthen_valid col HV) as HC. unfold darker, map_rgb. cbn [c_r c_g c_b].
  repeat split; (apply ladder_between; [exact HC|apply HC; cbn; auto|apply lut_pos_01|apply lut_pos_le, Hxy]).
Qed.
(** Greater components stay greater. *)
Lemma ladder_mono c l l' t : valid_rgb c -> 0 <= l <= l' -> l' <= 1 -> 0 <= t <= 1 -> ladder c l t <= ladder c l' t.
Proof.
  intros HC Hl Hl' Ht. unfold ladder. pose proof (pow_pos_01 _ (333 / 1000) (colour_dist_01 c 1 HC ltac:(lra)) ltac:(lra)) as P. pose proof (pow_pos_01 _ (333 / 1000) (colour_dist_01 c 0 HC ltac:(lra)) ltac:(lra)) as Q.
  set (a := pow_pos (colour_dist c 1) (333 / 1000)) in *. set (b := pow_pos (colour_dist c 0) (333 / 1000)) in *. clearbody a b. unfold seg3.
  destruct (Rleb_spec t (1 / 2)).
  - assert (E : forall y, y + (1 - y) * a + (y - (y + (1 - y) * a)) * (2 * t) = y * (1 - a * (1 - 2 * t)) + a * (1 - 2 * t)) by (intros; ring). rewrite !E.
    assert (0 <= a * (1 - 2 * t) <= 1) by (split; [apply Rmult_le_pos; lra|rewrite <- (Rmult_1_l 1); apply Rmult_le_compat; lra]). apply Rplus_le_compat_r, Rmult_le_compat_r; lra.
  - assert (E : forall y, y + (y + (0 - y) * b - y) * (2 * t - 1) = y * (1 - b * (2 * t - 1))) by (intros; ring). rewrite !E.
    assert (0 <= b * (2 * t - 1) <= 1) by (split; [apply Rmult_le_pos; lra|rewrite <- (Rmult_1_l 1); apply Rmult_le_compat; lra]). apply Rmult_le_compat_r; lra.
Qed.
(** The order of the components: chosen by name. *)
Definition component (k : nat) (c : rgb) : R := nth k (channels c) 0.
Lemma component_map f k c : (k < 3)%nat -> component k (map_rgb f c) = f (component k c).
Proof. intros Hk. destruct k as [|[|[|k]]]; [reflexivity|reflexivity|reflexivity|lia]. Qed.
Lemma component_in k c : (k < 3)%nat -> In (component k c) (channels c).
Proof. intros Hk. apply nth_In. exact Hk. Qed.
Lemma cmap_order : forall col x i j, valid_rgb col -> ~ (c_r col = c_g col /\ c_g col = c_b col) -> (i < 3)%nat -> (j < 3)%nat ->
  nth i (channels col) 0 <= nth j (channels col) 0 -> nth i (channels (color_to_cmap col x)) 0 <= nth j (channels (color_to_cmap col x)) 0.
Proof.
  intros col x i j HV Hn Hi Hj Hij. change (component i (color_to_cmap col x) <= component j (color_to_cmap col x)). rewrite cmap_ladder by exact HV. rewrite !component_map by assumption.
  pose proof (strengthen_valid col HV) as HC. assert (L : cmin col < cmax col).
  { destruct (Rlt_dec (cmin col) (cmax col)) as [L|L]; [exact L|]. exfalso. apply Hn. destruct (cmax_brightest col) as [_ M]. destruct (cmin_faintest col) as [_ N].
    unfold channels in M, N. pose proof (M (c_r col) (or_introl eq_refl)). pose proof (M (c_g col) (or_intror (or_introl eq_refl))). pose proof (M (c_b col) (or_intror (or_intror (or_introl eq_refl)))).
    pose proof (N (c_r col) (or_introl eq_refl)). pose proof (N (c_g col) (or_intror (or_introl eq_refl))). pose proof (N (c_b col) (or_intror (or_intror (or_introl eq_refl)))). lra. }
  apply ladder_mono; [exact HC| |apply HC, component_in, Hj|apply lut_pos_01]. split; [apply HC, component_in, Hi|].
  pose proof (strengthen_colour col _ _ HV (cmax_brightest col) (cmin_faintest col) L) as E. rewrite E, !component_map by assumption.
  change (component i col <= component j col) in Hij. pose proof (HV _ (proj1 (cmax_brightest col))) as VM. pose proof (HV _ (proj1 (cmin_faintest col))) as VN.
  assert (S0 : 0 <= (cmax col - cmin col) / cmax col) by (apply Rmult_le_pos; [lra|left; apply Rinv_0_lt_compat; lra]).
  apply Rmult_le_compat_l; [lra|]. apply Rplus_le_compat_l, Ropp_le_contravar, Rmult_le_compat_l; [lra|]. apply Rmult_le_compat_r; [left; apply Rinv_0_lt_compat; lra|lra].
Qed.
(** Grey becomes red. *)
Lemma cmap_grey : forall g x, 0 <= g <= 1 -> c_g (color_to_cmap (grey g) x) = c_b (color_to_cmap (grey g) x) /\ c_g (color_to_cmap (grey g) x) <= c_r (color_to_cmap (grey g) x)
  /\ c_g (color_to_cmap (grey g) (1 / 2)) < c_r (color_to_cmap (grey g) (1 / 2)).
Proof.
  intros g x Hg. assert (HV : valid_rgb (grey g)) by (intros y Hy; cbn in Hy; destruct Hy as [<-|[<-|[<-|[]]]]; exact Hg).
  pose proof (strengthen_valid _ HV) as HC. rewrite !cmap_ladder by exact HV. unfold map_rgb. cbn [c_r c_g c_b]. rewrite strengthen_grey in * by exact Hg. cbn [c_r c_g c_b].
  set (v := (3 * g + 1) / 4) in *. assert (Vp : 1 / 4 <= v <= 1) by (unfold v; lra). clearbody v. set (c := mkRGB v (3 / 4 * v) (3 / 4 * v)) in *.
  split; [reflexivity|]. split; [apply ladder_mono; [exact HC|lra|lra|apply lut_pos_01]|].
  assert (T : lut_pos (1 / 2) = 128 / 255).
  { unfold lut_pos. rewrite (int_part_is (1 / 2 * 256) 128) by lra. reflexivity. }
  rewrite T. unfold ladder, seg3. destruct (Rleb_spec (128 / 255) (1 / 2)); [lra|].
  pose proof (pow_pos_01 _ (333 / 1000) (colour_dist_01 c 0 HC ltac:(lra)) ltac:(lra)) as Q. set (b := pow_pos (colour_dist c 0) (333 / 1000)) in *. clearbody b.
  assert (E : forall y, y + (y + (0 - y) * b - y) * (2 * (128 / 255) - 1) = y * (1 - b / 255)) by (intros; field). rewrite !E. apply Rmult_lt_compat_r; lra.
Qed.

(* ------------------------------------------------------------ corner plots *)
(** In the panels off the diagonal the colormap is made from a colour: the one given, else the middle of the colormap given, else the next of the cycle. *)
Lemma corner_cmap : forall next next' color cm, exists c, corner_colours next next' color cm = (c, (c, color_to_cmap c))
  /\ (forall c0, color = Some c0 -> c = c0) /\ (color = None -> forall m, cm = Some m -> c = m (1 / 2)) /\ (color = None -> cm = None -> c = next).
Proof.
  intros next next' color cm. unfold corner_colours, dist2d_colours, parse_color_cmap. destruct color as [c0|]; [|destruct cm as [m|]]; cbn [fst snd]; eexists; (split; [reflexivity|]);
    (split; [intros; congruence|]); (split; intros; congruence).
Qed.
(** Standing alone, dist2d and contour use the colormap given, unless a colour is given too. *)
Lemma dist2d_cmap : forall next m, dist2d_colours next None (Some m) = (m (1 / 2), m) /\ forall c cm, dist2d_colours next (Some c) cm = (c, color_to_cmap c).
Proof. intros. split; reflexivity. Qed.
(** A colormap from black to white is used in the other direction. *)
Lemma corner_cmap_refuted : exists m c m', corner_colours (grey 0) (grey 0) None (Some m) = (c, (c, m'))
  /\ (forall x y, x < y -> c_r (m x) < c_r (m y)) /\ (forall x y, x <= y -> c_r (m' y) <= c_r (m' x)) /\ c_r (m 0) = 0 /\ 0 < c_r (m' 0) /\ c_g (m (1 / 2)) = c_r (m (1 / 2)) /\ c_g (m' (1 / 2)) < c_r (m' (1 / 2)).
Proof.
  exists grey, (grey (1 / 2)), (color_to_cmap (grey (1 / 2))). assert (HV : valid_rgb (grey (1 / 2))) by (intros y Hy; cbn in Hy; destruct Hy as [<-|[<-|[<-|[]]]]; lra).
  split; [reflexivity|]. split; [intros x y H; exact H|]. split; [intros x y H; apply (cmap_darker (grey (1 / 2)) x y HV H)|]. split; [reflexivity|].
  destruct (cmap_grey (1 / 2) 0 ltac:(lra)) as (_ & _ & G). pose proof (cmap_darker (grey (1 / 2)) 0 (1 / 2) HV ltac:(lra)) as [D _].
  pose proof (cmap_valid (grey (1 / 2)) (1 / 2) HV (c_g (color_to_cmap (grey (1 / 2)) (1 / 2))) (or_intror (or_introl eq_refl))). split; [lra|]. split; [reflexivity|exact G].
Qed.

(** Proofs about integer data: minmax and reflection. *)
From Coquelicot Require Import Coquelicot.
From Coq Require Import ZArith FunctionalExtensionality.
From Verif Require Import Base ModelLinAlg SpecLinAlg ProofLinAlg SpecIntegral ProofIntegral ModelKernels SpecKernels ProofKernels ModelKDE SpecKDE ProofDensity
  ProofReflect1 ModelReflect ModelResample ModelUtils ModelSample SpecUtils ProofUtils ProofSample3 ProofTop2 ModelInt SpecInt.
Open Scope R_scope.
Notation length := List.length.

(* ------------------------------------------------------------ truncation *)
Lemma put_whole x : whole (put_int x). Proof. eexists. reflexivity. Qed.
Lemma int_part_unique x z : IZR z <= x < IZR z + 1 -> Int_part x = z.
Proof.
  intros H. destruct (base_Int_part x) as [A B].
  assert (H1 : IZR (Int_part x) < IZR (z + 1)) by (rewrite plus_IZR; lra). assert (H2 : IZR (z - 1) < IZR (Int_part x)) by (rewrite minus_IZR; lra).
  apply lt_IZR in H1, H2. lia.
Qed.
Lemma put_id x : whole x -> put_int x = x.
Proof.
  intros [z ->]. unfold put_int, trunc_int. f_equal. destruct (Rleb_spec 0 (IZR z)).
  - apply int_part_unique. lra.
  - rewrite <- opp_IZR. rewrite (int_part_unique (IZR (- z)) (- z)); [lia|]. lra.
Qed.
Lemma put_spec x : towards_zero x (put_int x).
Proof.
  split; [apply put_whole|]. unfold put_int, trunc_int. destruct (Rleb_spec 0 x) as [H|H].
  - destruct (base_Int_part x) as [A B]. assert (0 <= IZR (Int_part x)).
    { assert (- 1 < IZR (Int_part x)) by lra. apply lt_IZR in H0. apply IZR_le. lia. }
    rewrite !Rabs_right by lra. repeat split; try lra. nra.
  - destruct (base_Int_part (- x)) as [A B]. rewrite opp_IZR. assert (0 <= IZR (Int_part (- x))).
    { assert (- 1 < IZR (Int_part (- x))) by lra. apply lt_IZR in H0. apply IZR_le. lia. }
    rewrite (Rabs_left x), (Rabs_left1 (- _)), (Rabs_left1 (x - _)) by lra. repeat split; try lra. nra.
Qed.
Lemma put_neg x : x <= 0 -> x <= put_int x < x + 1 /\ put_int x <= 0.
Proof.
  intros H. destruct (put_spec x) as (_ & A & B & C). destruct (Req_dec x 0) as [-> |N].
  - rewrite Rabs_R0 in A. pose proof (Rabs_pos (put_int 0)). assert (E : Rabs (put_int 0) = 0) by lra. 
    assert (put_int 0 = 0) by (destruct (Req_dec (put_int 0) 0); [assumption|apply Rabs_no_R0 in H1; lra]). lra.
  - assert (put_int x <= 0) by (destruct (Rle_lt_dec (put_int x) 0) as [|Q]; [assumption|]; assert (0 < put_int x * (- x)) by (apply Rmult_lt_0_compat; lra); lra). rewrite (Rabs_left x) in A by lra. rewrite (Rabs_left1 (put_int x)) in A by lra. apply Rabs_def2 in B. lra.
Qed.
Lemma put_pos x : 0 <= x -> x - 1 < put_int x <= x /\ 0 <= put_int x.
Proof.
  intros H. destruct (put_spec x) as (_ & A & B & C). destruct (Req_dec x 0) as [-> |N].
  - destruct (put_neg 0); [lra|]. rewrite Rabs_R0 in A. pose proof (Rabs_pos (put_int 0)). split; [|lra].
    pose proof (Rle_abs (put_int 0)). lra.
  - assert (0 <= put_int x) by (destruct (Rle_lt_dec 0 (put_int x)) as [|Q]; [assumption|]; assert (0 < (- put_int x) * x) by (apply Rmult_lt_0_compat; lra); lra). rewrite (Rabs_right (put_int x)) in A by lra. rewrite (Rabs_right x) in A by lra. apply Rabs_def2 in B. lra.
Qed.
(** Truncation keeps on the same side of a whole number. *)
Lemma put_le x z : x <= IZR z -> put_int x <= IZR z.
Proof.
  intros H. destruct (Rle_lt_dec 0 x) as [P|P]; [destruct (put_pos x P); lra|].
  destruct (put_neg x) as [A _]; [lra|]. unfold put_int in *. assert (IZR (trunc_int x) < IZR (z + 1)) by (rewrite plus_IZR; lra).
  apply lt_IZR in H0. apply IZR_le. lia.
Qed.
Lemma put_ge x z : IZR z <= x -> IZR z <= put_int x.
Proof.
  intros H. destruct (Rle_lt_dec x 0) as [P|P]; [destruct (put_neg x P); lra|].
  destruct (put_pos x) as [A _]; [lra|]. unfold put_int in *. assert (IZR (z - 1) < IZR (trunc_int x)) by (rewrite minus_IZR; lra).
  apply lt_IZR in H0. apply IZR_le. lia.
Qed.

(* ------------------------------------------------------------ minmax *)
Lemma vmin_whole x r : whole x -> (forall y, In y r -> whole y) -> whole (vmin x r).
Proof. intros Hx Hr. destruct (vmin_spec x r) as [[<-|H] _]; [exact Hx|apply Hr, H]. Qed.
Lemma vmax_whole x r : whole x -> (forall y, In y r -> whole y) -> whole (vmax x r).
Proof. intros Hx Hr. destruct (vmax_spec x r) as [[<-|H] _]; [exact Hx|apply Hr, H]. Qed.
Lemma int_run data prev s limit x y : data <> [] -> stretch_by s x y ->
  exists m M, min_of (map IZR data) m /\ max_of (map IZR data) M /\ whole m /\ whole M
  /\ let c := (m + M) / 2 in let r1 := match s with StNone => (m, M) | _ => (put_int (c - (1 + x) * (c - m)), put_int (c + (1 + y) * (M - c))) end in
     let r2 := put_limit put_int limit (put_prev put_int prev r1) in
     minmax_int data false prev s StNone limit = Ok (Some (Some (fst r2), Some (snd r2))).
Proof.
  intros Hne Hs. destruct data as [|z l]; [contradiction|]. exists (vmin (IZR z) (map IZR l)), (vmax (IZR z) (map IZR l)).
  split; [apply vmin_spec|]. split; [apply vmax_spec|].
  assert (W : forall u, In u (map IZR l) -> whole u) by (intros u Hu; apply in_map_iff in Hu; destruct Hu as [v [<- _]]; exists v; reflexivity).
  split; [apply vmin_whole; [exists z; reflexivity|exact W]|]. split; [apply vmax_whole; [exists z; reflexivity|exact W]|].
  unfold minmax_int. cbn [map]. destruct s as [|f|a b|]; cbn in Hs |- *; [|destruct Hs as [-> ->]; reflexivity|destruct Hs as [-> ->]; reflexivity|contradiction].
  reflexivity.
Qed.
(** With a logarithmic stretch the ranges are those of the same numbers as floats. *)
Lemma int_log : forall data positive prev s limit, s <> StNone -> minmax_int data positive prev StNone s limit = minmax (map IZR data) positive prev StNone s limit.
Proof.
  intros data positive prev s limit Hs. unfold minmax_int, minmax. destruct (map IZR data) as [|x r]; [reflexivity|]. cbv zeta.
  destruct (if positive then _ else _) as [|y l]; [reflexivity|].
  assert (E : forall q, put_limit (fun v => v) limit (put_prev (fun v => v) prev q) = clip_limit limit (clip_prev prev q)).
  { intros q. destruct limit as [[? ?]|], prev as [[? ?]|]; reflexivity. }
  destruct s as [|f|a b|]; [congruence| | |reflexivity]; cbn [stretch_pair bind fst snd]; rewrite E; reflexivity.
Qed.
(** positive=True: the numbers above zero only. *)
Lemma filter_IZR data : filter (fun x => Rltb 0 x) (map IZR data) = map IZR (filter (fun z => (0 <? z)%Z) data).
Proof.
  induction data as [|z l IH]; [reflexivity|]. cbn [map filter]. rewrite IH. destruct (Rltb_spec 0 (IZR z)) as [H|H], (Z.ltb_spec 0 z) as [G|G]; try reflexivity.
  - apply lt_IZR in H. lia.
  - exfalso. apply IZR_lt in G. lra.
Qed.
Lemma int_positive : forall data pos prev s ls limit, data <> [] -> (forall z, In z pos <-> In z data /\ (0 < z)%Z) -> 
  (pos = [] -> minmax_int data true prev s ls limit = Err ValueError)
  /\ (pos <> [] -> minmax_int data true prev s ls limit = minmax_int pos false prev s ls limit).
Proof.
  intros data pos prev s ls limit Hd Hp. set (F := filter (fun z => (0 <? z)%Z) data).
  assert (HF : forall z, In z pos <-> In z F).
  { intros z. unfold F. rewrite filter_In, Z.ltb_lt. apply Hp. }
  assert (HE : minmax_int data true prev s ls limit = match map IZR F with [] => Err ValueError | _ => minmax_int F false prev s ls limit end).
  { unfold F at 1. rewrite <- filter_IZR. unfold minmax_int at 1 2. unfold F. rewrite <- filter_IZR. destruct data as [|z l]; [congruence|]. cbn [map].
    destruct (filter _ (IZR z :: map IZR l)); reflexivity. }
  rewrite HE. split.
  - intros ->. destruct F as [|z F]; [reflexivity|]. destruct (proj2 (HF z) (or_introl eq_refl)).
  - intros Hne. destruct pos as [|p pos]; [congruence|]. destruct F as [|f F]; [destruct (proj1 (HF p) (or_introl eq_refl))|]. cbn [map].
    assert (HV : forall w, In w (IZR p :: map IZR pos) <-> In w (IZR f :: map IZR F)).
    { intros w. change (In w (map IZR (p :: pos)) <-> In w (map IZR (f :: F))). rewrite !in_map_iff. split; intros [z [E H]]; exists z; (split; [exact E|apply HF, H]). }
    assert (E1 : vmin (IZR f) (map IZR F) = vmin (IZR p) (map IZR pos)).
    { apply (min_of_unique (IZR f :: map IZR F)); [apply vmin_spec|]. destruct (vmin_spec (IZR p) (map IZR pos)) as [A B]. split; [apply HV, A|]. intros x Hx. apply B, HV, Hx. }
    assert (E2 : vmax (IZR f) (map IZR F) = vmax (IZR p) (map IZR pos)).
    { apply (max_of_unique (IZR f :: map IZR F)); [apply vmax_spec|]. destruct (vmax_spec (IZR p) (map IZR pos)) as [A B]. split; [apply HV, A|]. intros x Hx. apply B, HV, Hx. }
    unfold minmax_int. cbn [map]. rewrite E1, E2. reflexivity.
Qed.
(** The data are within the range, which has whole ends. *)
Lemma int_contains : forall data prev s x y, data <> [] -> stretch_by s x y -> 0 <= x -> 0 <= y ->
  exists a b, minmax_int data false prev s StNone None = Ok (Some (Some a, Some b)) /\ whole a /\ whole b /\ forall z, In z data -> a <= IZR z <= b.
Proof.
  intros data prev s x y Hne Hs Hx Hy. destruct (int_run data prev s None x y Hne Hs) as (m & M & Hm & HM & Wm & WM & E). cbv zeta in E.
  set (r1 := match s with StNone => _ | _ => _ end) in *. exists (fst (put_prev put_int prev r1)), (snd (put_prev put_int prev r1)). split; [exact E|].
  assert (mM : m <= M) by (apply Hm, HM).
  assert (R1 : whole (fst r1) /\ whole (snd r1) /\ fst r1 <= m /\ M <= snd r1).
  { assert (G : whole (put_int ((m + M) / 2 - (1 + x) * ((m + M) / 2 - m))) /\ whole (put_int ((m + M) / 2 + (1 + y) * (M - (m + M) / 2)))
      /\ put_int ((m + M) / 2 - (1 + x) * ((m + M) / 2 - m)) <= m /\ M <= put_int ((m + M) / 2 + (1 + y) * (M - (m + M) / 2))).
    { split; [apply put_whole|]. split; [apply put_whole|]. destruct Wm as [zm Em], WM as [zM EM]. split.
      - apply Rle_trans with (IZR zm); [apply put_le; rewrite <- Em|lra]. assert (0 <= x * ((m + M) / 2 - m)) by (apply Rmult_le_pos; lra). lra.
      - apply Rle_trans with (IZR zM); [lra|apply put_ge; rewrite <- EM]. assert (0 <= y * (M - (m + M) / 2)) by (apply Rmult_le_pos; lra). lra. }
    unfold r1. destruct s; try exact G. cbn. repeat split; try assumption; lra. }
  destruct R1 as (W1 & W2 & L1 & L2). 
  assert (R2 : whole (fst (put_prev put_int prev r1)) /\ whole (snd (put_prev put_int prev r1)) /\ fst (put_prev put_int prev r1) <= m /\ M <= snd (put_prev put_int prev r1)).
  { destruct prev as [[pl ph]|]; [|repeat split; assumption]. cbn [put_prev fst snd]. destruct Wm as [zm Em], WM as [zM EM].
    destruct pl as [p|], ph as [q|]; repeat split; try assumption; try apply put_whole.
    all: first [rewrite Em; apply put_le; rewrite <- Em; eapply Rle_trans; [apply Rmin_l|exact L1]|rewrite EM; apply put_ge; rewrite <- EM; eapply Rle_trans; [exact L2|apply Rmax_l]]. }
  destruct R2 as (V1 & V2 & K1 & K2). split; [exact V1|]. split; [exact V2|]. intros z Hz. assert (I : In (IZR z) (map IZR data)) by (apply in_map, Hz).
  pose proof (proj2 Hm _ I). pose proof (proj2 HM _ I). lra.
Qed.
(** The margin. *)
Lemma int_margin : forall data s x y m M, stretch_by s x y -> s <> StNone -> min_of (map IZR data) m -> max_of (map IZR data) M ->
  exists a b, minmax_int data false None s StNone None = Ok (Some (Some a, Some b))
  /\ towards_zero (m - x * (M - m) / 2) a /\ towards_zero (M + y * (M - m) / 2) b.
Proof.
  intros data s x y m M Hs Hn Hm HM. assert (Hne : data <> []) by (intros ->; destruct Hm as [[] _]).
  destruct (int_run data None s None x y Hne Hs) as (m' & M' & Hm' & HM' & _ & _ & E). cbv zeta in E.
  rewrite (min_of_unique _ _ _ Hm' Hm), (max_of_unique _ _ _ HM' HM) in E.
  exists (put_int (m - x * (M - m) / 2)), (put_int (M + y * (M - m) / 2)). split; [|split; apply put_spec].
  rewrite E. replace ((m + M) / 2 - (1 + x) * ((m + M) / 2 - m)) with (m - x * (M - m) / 2) by field.
  replace ((m + M) / 2 + (1 + y) * (M - (m + M) / 2)) with (M + y * (M - m) / 2) by field. destruct s; [congruence|reflexivity|reflexivity|contradiction].
Qed.
Lemma int_margin_lost : forall data s f m M, min_of (map IZR data) m -> max_of (map IZR data) M -> m <= 0 <= M -> s = StScalar f -> 0 <= f -> f * (M - m) < 2 ->
  minmax_int data false None s StNone None = Ok (Some (Some m, Some M)).
Proof.
  intros data s f m M Hm HM H0 -> Hf Hl. assert (Wm : whole m /\ whole M).
  { split; [destruct Hm as [H _]|destruct HM as [H _]]; apply in_map_iff in H; destruct H as [z [<- _]]; exists z; reflexivity. }
  destruct (int_margin data (StScalar f) f f m M (conj eq_refl eq_refl) ltac:(discriminate) Hm HM) as (a & b & E & Ta & Tb). rewrite E.
  set (d := f * (M - m) / 2) in *. assert (0 <= d < 1). { assert (0 <= f * (M - m)) by (apply Rmult_le_pos; lra). unfold d. lra. }
  destruct Wm as [[zm Em] [zM EM]]. destruct Ta as ([za Ea] & A1 & A2 & A3), Tb as ([zb Eb] & B1 & B2 & B3).
  assert (a = m).
  { apply Rabs_def2 in A2. assert (a <= 0). { destruct (Req_dec (m - d) 0) as [Z|Z]; [rewrite Z, Rabs_R0 in A1; pose proof (Rle_abs a); lra|].
      destruct (Rle_lt_dec a 0) as [|Q]; [assumption|]. assert (0 < a * (- (m - d))) by (apply Rmult_lt_0_compat; lra). lra. }
    rewrite (Rabs_left1 a), (Rabs_left1 (m - d)) in A1 by lra. rewrite Ea, Em in *. f_equal.
    assert (P1 : IZR (zm - 1) < IZR za) by (rewrite minus_IZR; lra). assert (P2 : IZR za < IZR (zm + 1)) by (rewrite plus_IZR; lra). apply lt_IZR in P1, P2. lia. }
  assert (b = M).
  { apply Rabs_def2 in B2. assert (0 <= b). { destruct (Req_dec (M + d) 0) as [Z|Z]; [rewrite Z, Rabs_R0 in B1; pose proof (Rle_abs (- b)) as Q; rewrite Rabs_Ropp in Q; lra|].
      destruct (Rle_lt_dec 0 b) as [|Q]; [assumption|]. assert (0 < (- b) * (M + d)) by (apply Rmult_lt_0_compat; lra). lra. }
    rewrite (Rabs_right b), (Rabs_right (M + d)) in B1 by lra. rewrite Eb, EM in *. f_equal.
    assert (P1 : IZR (zM - 1) < IZR zb) by (rewrite minus_IZR; lra). assert (P2 : IZR zb < IZR (zM + 1)) by (rewrite plus_IZR; lra). apply lt_IZR in P1, P2. lia. }
  congruence.
Qed.
(** The ends after truncation against the number truncated. *)
Lemma put_below x : put_int x <= x <-> 0 <= x \/ whole x.
Proof.
  split.
  - intros H. destruct (Rle_lt_dec 0 x) as [|N]; [left; assumption|right]. destruct (put_neg x) as [A _]; [lra|]. replace x with (put_int x) by lra. apply put_whole.
  - intros [H|H]; [destruct (put_pos x H); lra|rewrite put_id by exact H; lra].
Qed.
Lemma put_above x : x <= put_int x <-> x <= 0 \/ whole x.
Proof.
  split.
  - intros H. destruct (Rle_lt_dec x 0) as [|N]; [left; assumption|right]. destruct (put_pos x) as [A _]; [lra|]. replace x with (put_int x) by lra. apply put_whole.
  - intros [H|H]; [destruct (put_neg x H); lra|rewrite put_id by exact H; lra].
Qed.
(** The previous range is contained exactly if ... *)
Lemma int_prev : forall data p q m M, min_of (map IZR data) m -> max_of (map IZR data) M ->
  exists a b, minmax_int data false (Some (Some p, Some q)) StNone StNone None = Ok (Some (Some a, Some b))
  /\ (a <= p <-> m <= p \/ 0 <= p \/ whole p) /\ (q <= b <-> q <= M \/ q <= 0 \/ whole q).
Proof.
  intros data p q m M Hm HM. assert (Hne : data <> []) by (intros ->; destruct Hm as [[] _]).
  destruct (int_run data (Some (Some p, Some q)) StNone None 0 0 Hne (conj eq_refl eq_refl)) as (m' & M' & Hm' & HM' & Wm & WM & E). cbv zeta in E.
  rewrite (min_of_unique _ _ _ Hm' Hm) in *. rewrite (max_of_unique _ _ _ HM' HM) in *. eexists _, _. split; [exact E|]. cbn [put_limit put_prev fst snd]. split.
  - destruct (Rle_lt_dec m p) as [A|A].
    + rewrite Rmin_left by lra. rewrite put_id by exact Wm. tauto.
    + rewrite Rmin_right by lra. rewrite put_below. split; [tauto|intros [C|C]; [lra|exact C]].
  - destruct (Rle_lt_dec q M) as [A|A].
    + rewrite Rmax_left by lra. rewrite put_id by exact WM. tauto.
    + rewrite Rmax_right by lra. rewrite put_above. split; [tauto|intros [C|C]; [lra|exact C]].
Qed.
Lemma int_limit : forall data p q m M, min_of (map IZR data) m -> max_of (map IZR data) M ->
  exists a b, minmax_int data false None StNone StNone (Some (Some p, Some q)) = Ok (Some (Some a, Some b))
  /\ (p <= a <-> p <= m \/ p <= 0 \/ whole p) /\ (b <= q <-> M <= q \/ 0 <= q \/ whole q).
Proof.
  intros data p q m M Hm HM. assert (Hne : data <> []) by (intros ->; destruct Hm as [[] _]).
  destruct (int_run data None StNone (Some (Some p, Some q)) 0 0 Hne (conj eq_refl eq_refl)) as (m' & M' & Hm' & HM' & Wm & WM & E). cbv zeta in E.
  rewrite (min_of_unique _ _ _ Hm' Hm) in *. rewrite (max_of_unique _ _ _ HM' HM) in *. eexists _, _. split; [exact E|]. cbn [put_limit put_prev fst snd]. split.
  - destruct (Rle_lt_dec p m) as [A|A].
    + rewrite Rmax_left by lra. rewrite put_id by exact Wm. tauto.
    + rewrite Rmax_right by lra. rewrite put_above. split; [tauto|intros [C|C]; [lra|exact C]].
  - destruct (Rle_lt_dec M q) as [A|A].
    + rewrite Rmin_left by lra. rewrite put_id by exact WM. tauto.
    + rewrite Rmin_right by lra. rewrite put_below. split; [tauto|intros [C|C]; [lra|exact C]].
Qed.
Lemma not_whole_half z : ~ whole (IZR z + / 2).
Proof. intros [w E]. assert (H : IZR (2 * z + 1) = IZR (2 * w)) by (rewrite plus_IZR, !mult_IZR; lra). apply eq_IZR in H. lia. Qed.
(** A running range over floating point and integer data loses data. *)
Lemma int_running_refuted : exists (floats : list R) (ints : list Z) r a b x,
  minmax floats false None StNone StNone None = Ok r /\ minmax_int ints false r StNone StNone None = Ok (Some (Some a, Some b)) /\ In x floats /\ x < a.
Proof.
  exists [-5 / 2; 1], [0%Z], (Some (Some (-5 / 2), Some 1)).
  destruct (int_prev [0%Z] (-5 / 2) 1 0 0) as (a & b & E & A & _); [split; [left; reflexivity|intros x [<-|[]]; lra]|split; [left; reflexivity|intros x [<-|[]]; lra]|].
  exists a, b, (-5 / 2). split; [|split; [exact E|split; [left; reflexivity|]]].
  - cbn. rewrite Rmin_left, Rmax_right by lra. reflexivity.
  - destruct (Rle_lt_dec a (-5 / 2)) as [H|H]; [|exact H]. apply A in H. exfalso. destruct H as [H|[H|H]]; [lra|lra|].
    apply (not_whole_half (-3)). replace (-3 + / 2) with (-5 / 2) by lra. exact H.
Qed.

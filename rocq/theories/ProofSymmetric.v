(** C147: symmetric data. *)
From Coquelicot Require Import Coquelicot.
From Coq Require Import Permutation FunctionalExtensionality.
From Verif Require Import Base ModelLinAlg SpecLinAlg ProofLinAlg ModelKernels SpecKernels ProofKernels SpecIntegral ProofIntegral ModelKDE SpecKDE SpecLinear SpecReflected SpecCdfError SpecSymmetric
  ModelInterp ModelUtils SpecUtils ProofInterp ProofUtils ProofUtils2
  ProofDensity ProofAffine ProofKDE ProofTop ProofTop2 ProofTop3 ProofReflected ProofLinear ProofSlope ProofCdfError ProofEdgeSlope ProofBandwidth.
Open Scope R_scope.
Notation length := List.length.

(** * The density *)
Lemma positive_mean n data ws d M K (prob : bool) f : (1 <= n)%nat -> built_kde n data ws d M None K -> kde_density K prob n None PNone = Ok f ->
  0 < sumf (fun pw : pt * R => snd pw * f (fst pw)) (combine data ws).
Proof.
  intros Hn HB Hf. destruct (built_inv _ _ _ _ _ _ _ HB) as (_ & _ & _ & _ & _ & Hl & Hnn & Hw & _ & _ & Hs & Hpd).
  destruct (sympd_inverse n M Hs Hpd) as [N HN].
  destruct (as_textbook n data ws d M K N prob f Hn HB HN Hf) as (Z & HZ & _ & _ & Hm & Hv). set (k := mass prob ws / lsum ws / Z) in *.
  assert (Hk : 0 < k) by (unfold k; repeat apply Rdiv_lt_0_compat; assumption).
  assert (NN : forall x, 0 <= spec_sum d n N (combine data ws) x).
  { intros x. apply sumf_nonneg. intros [p w] Hi. apply Rmult_le_pos; [apply Hnn; exact (in_combine_r _ _ _ _ Hi)|apply spec_prof_nonneg']. }
  assert (NF : forall x, 0 <= f x) by (intros x; rewrite Hv; apply Rmult_le_pos; [lra|apply NN]).
  apply pos_sum.
  - intros [p w] Hi. cbn [fst snd]. apply Rmult_le_pos; [apply Hnn; exact (in_combine_r _ _ _ _ Hi)|apply NF].
  - destruct (lsum_pos_ex ws Hnn Hw) as (w & Hi & Hp). destruct (pair_of data ws w (eq_sym Hl) Hi) as (p & Hpw). exists (p, w). split; [exact Hpw|]. cbn [fst snd]. apply Rmult_lt_0_compat; [exact Hp|].
    rewrite Hv. apply Rmult_lt_0_compat; [exact Hk|]. apply pos_sum.
    + intros [q v] Hq. apply Rmult_le_pos; [apply Hnn; exact (in_combine_r _ _ _ _ Hq)|apply spec_prof_nonneg'].
    + exists (p, w). split; [exact Hpw|]. cbn [fst snd]. apply Rmult_lt_0_compat; [exact Hp|].
      assert (Q0 : quad n N (psub p p) = 0). { unfold quad. transitivity (rsum n (fun _ => 0)); [|apply rsum_zero]. apply rsum_ext. intros i _. transitivity (rsum n (fun _ => 0)); [|apply rsum_zero]. apply rsum_ext. intros j _. unfold psub. ring. }
      rewrite Q0, prof_0. lra.
Qed.

Lemma combine_fst_repeat (data : list pt) (r : R) : map fst (combine data (repeat r (length data))) = data.
Proof. induction data as [|p data IH]; [reflexivity|]. cbn [length repeat combine map fst]. rewrite IH. reflexivity. Qed.
Lemma combine_Fin (data : list pt) ws : combine data (map Fin ws) = map (fun pw : pt * R => (fst pw, Fin (snd pw))) (combine data ws).
Proof. revert ws. induction data as [|p data IH]; intros [|w ws]; try reflexivity. cbn [map combine fst snd]. rewrite IH. reflexivity. Qed.
Lemma res_rel_both {A} (P : A -> A -> Prop) a b : res_rel P (Ok a) (Ok b) -> P a b.
Proof. intros H. exact H. Qed.
Theorem sym_density n g c data w ws b resc d neffa M K (prob : bool) f : (1 <= n)%nat -> linear_change n g c -> unchanged g data ws -> one_bandwidth b -> weights_given w data ws ->
  kde_init n data w b false resc d None neffa None = Ok K -> kd_kernel K = Some (mkKernel d n M) -> symmetric n M -> posdef n M -> kde_density K prob n None PNone = Ok f ->
  c = 1 /\ forall x, f (g x) = f x.
Proof.
  intros Hn Hg Hu Hb Hw HK HKK HS HP Hf.
  assert (HB : built_kde n data ws d M None K) by (split; [exists w, b, false, resc, None, neffa; split; assumption|split; [exact HKK|split; assumption]]).
  destruct (built_inv _ _ _ _ _ _ _ HB) as (_ & _ & _ & _ & _ & Hl & _).
  pose proof (linear_change_density n g c Hg data w b resc d neffa prob Hb) as R0. rewrite HK in R0. cbn [bind] in R0. rewrite Hf in R0. apply res_rel_ok in R0. destruct R0 as (f' & E' & R1).
  assert (EF : forall x, f' x = f x).
  { assert (Lg : length (map g data) = length data) by apply map_length.
    assert (HR : res_rel (fun f g : pt -> R => forall x, f x = g x)
      (do K <- kde_init n (map g data) w b false resc d None neffa None ;; kde_density K prob n None PNone) (do K <- kde_init n data w b false resc d None neffa None ;; kde_density K prob n None PNone)).
    { destruct Hw as [[-> ->]| ->].
      - apply kde_permutation_none. unfold unchanged in Hu. apply (Permutation_map fst) in Hu. rewrite <- Lg in Hu at 1. rewrite !combine_fst_repeat in Hu. exact Hu.
      - apply kde_permutation; [rewrite map_length; congruence|rewrite map_length; congruence|]. rewrite !combine_Fin. apply Permutation_map, Hu. }
    rewrite E', HK in HR. cbn [bind] in HR. rewrite Hf in HR. exact HR. }
  assert (FX : forall x, f (g x) * c = f x) by (intros x; rewrite <- (EF (g x)); apply R1).
  assert (Hc : c = 1).
  { pose proof (positive_mean n data ws d M K prob f Hn HB Hf) as HS0. set (Sm := sumf (fun pw : pt * R => snd pw * f (fst pw)) (combine data ws)) in *.
    assert (E1 : Sm = c * Sm).
    { unfold Sm at 2. rewrite <- (sumf_perm (fun pw : pt * R => snd pw * f (fst pw)) _ _ Hu). rewrite combine_map_l. unfold Sm, sumf. rewrite map_map. cbn [fst snd]. clear -FX.
      induction (combine data ws) as [|[p v] L IH]; [cbn; ring|]. cbn [map lsum fst snd]. rewrite IH. rewrite <- (FX p). ring. }
    assert (Sm * (c - 1) = 0) by lra. apply Rmult_integral in H. destruct H; lra. }
  split; [exact Hc|]. intros x. rewrite <- (FX x), Hc. ring.
Qed.
Lemma mirror_linear n k v : (k < n)%nat -> linear_change n (mirrored k v) 1.
Proof.
  intros Hk. assert (E : mirrored k v = (fun x => (fun (y : pt) i => y i + (fun i => if Nat.eqb i k then 2 * v else 0) i) ((fun (y : pt) i => if Nat.eqb i k then -1 * y i else y i) x))).
  { apply functional_extensionality. intros x. apply functional_extensionality. intros i. unfold mirrored. destruct (Nat.eq_dec i k) as [->|Ne]; [rewrite Nat.eqb_refl; ring|]. apply Nat.eqb_neq in Ne. rewrite Ne. ring. }
  rewrite E. apply (change_mul n (fun (y : pt) i => if Nat.eqb i k then -1 * y i else y i) (fun (y : pt) i => y i + (fun i => if Nat.eqb i k then 2 * v else 0) i) (Rabs (-1)) 1); [apply (lc_scale n k (-1)); [exact Hk|lra]|apply (lc_shift n (fun i => if Nat.eqb i k then 2 * v else 0))|].
  rewrite Rabs_left by lra. ring.
Qed.
Theorem sym_mirror n k v data w ws b resc d neffa M K (prob : bool) f : (k < n)%nat -> unchanged (mirrored k v) data ws -> one_bandwidth b -> weights_given w data ws ->
  kde_init n data w b false resc d None neffa None = Ok K -> kd_kernel K = Some (mkKernel d n M) -> symmetric n M -> posdef n M -> kde_density K prob n None PNone = Ok f ->
  forall x, f (mirrored k v x) = f x.
Proof. intros Hk Hu Hb Hw HK HKK HS HP Hf. exact (proj2 (sym_density n _ 1 data w ws b resc d neffa M K prob f ltac:(lia) (mirror_linear n k v Hk) Hu Hb Hw HK HKK HS HP Hf)). Qed.

(** Half of the probability on each side. *)
Lemma half_of (f : R -> R) v l : (forall t, 0 <= f t) -> is_tint f l -> (forall t, f (2 * v - t) = f t) -> is_RInt_gen f (Rbar_locally m_infty) (at_point v) (l / 2).
Proof.
  intros Hf Hl Hs. destruct (upto_exists f l v Hf Hl) as [q Hq]. assert (E : q = l / 2); [|rewrite <- E; exact Hq].
  rewrite upto_iff in Hq. rewrite tint_iff in Hl. apply cond_eq. intros eps He.
  destruct (Hq (eps / 2) ltac:(lra)) as [N HN]. destruct (Hl (eps / 2) ltac:(lra)) as [B HB].
  set (u := Rmin (- N) (Rmin (- B) (2 * v - B)) - 1). assert (Hu : u < - N /\ u < - B /\ u < 2 * v - B).
  { unfold u. pose proof (Rmin_l (- N) (Rmin (- B) (2 * v - B))). pose proof (Rmin_r (- N) (Rmin (- B) (2 * v - B))). pose proof (Rmin_l (- B) (2 * v - B)). pose proof (Rmin_r (- B) (2 * v - B)). lra. }
  destruct (HN u ltac:(lra)) as (y & Hy & Ey). destruct (HB u (2 * v - u) ltac:(lra) ltac:(lra)) as (z & Hz & Ez).
  assert (H2 : is_RInt f v (2 * v - u) y).
  { assert (H := Hy). replace u with (-1 * (2 * v - u) + 2 * v) in H by ring. replace v with (-1 * v + 2 * v) in H at 3 by ring.
    apply is_RInt_swap in H. pose proof (is_RInt_comp_lin f (-1) (2 * v) v (2 * v - u) _ H) as H'. apply is_RInt_opp in H'.
    replace y with (opp (opp y)) by (unfold opp; cbn; ring). eapply is_RInt_ext; [|exact H']. intros t _. unfold opp, scal; cbn; unfold mult; cbn. replace (-1 * t + 2 * v) with (2 * v - t) by ring. rewrite Hs. ring. }
  pose proof (rint_uniq f u (2 * v - u) _ _ Hz (is_RInt_Chasles f u v (2 * v - u) y y Hy H2)) as E. change (z = y + y) in E.
  apply Rabs_lt_between in Ey. apply Rabs_lt_between in Ez. apply Rabs_lt_between. lra.
Qed.
Theorem sym_half v data w ws b resc d neffa M K f : unchanged (mirrored 0 v) data ws -> one_bandwidth b -> weights_given w data ws ->
  kde_init 1 data w b false resc d None neffa None = Ok K -> kd_kernel K = Some (mkKernel d 1 M) -> symmetric 1 M -> posdef 1 M -> kde_density K true 1 None PNone = Ok f ->
  prob_upto f v (1 / 2).
Proof.
  intros Hu Hb Hw HK HKK HS HP Hf.
  assert (HB : built_kde 1 data ws d M None K) by (split; [exists w, b, false, resc, None, neffa; split; assumption|split; [exact HKK|split; assumption]]).
  apply half_of; [intros t; apply (density_nonneg data ws d M None K f HB Hf)|apply (density_total_1 data ws d M K f HB Hf)|].
  intros t. rewrite <- (sym_mirror 1 0 v data w ws b resc d neffa M K true f ltac:(lia) Hu Hb Hw HK HKK HS HP Hf (pt1 t)).
  assert (HM : 0 < M O O) by (apply (posdef_diag_pos 1); [exact HP|lia]).
  destruct (as_textbook 1 data ws d M K _ true f (le_n 1) HB (inverse_1 M HM) Hf) as (Z & _ & _ & _ & _ & Hv). rewrite !Hv. f_equal.
Qed.

(** * Quantiles *)
Lemma fair_unique : forall l m : list (R * R), Permutation l m -> sorted_fst l -> sorted_fst m -> (forall p q, In p l -> In q l -> fst p = fst q -> p = q) -> l = m.
Proof.
  induction l as [|a l IH]; intros m Hp Hl Hm Hd.
  - apply Permutation_nil in Hp. auto.
  - destruct m as [|b m]; [apply Permutation_sym, Permutation_nil in Hp; discriminate Hp|].
    assert (E : a = b).
    { assert (Ha : In a (b :: m)) by (eapply Permutation_in; [exact Hp|left; reflexivity]). assert (Hb : In b (a :: l)) by (eapply Permutation_in; [apply Permutation_sym, Hp|left; reflexivity]).
      apply Hd; [left; reflexivity|exact Hb|]. destruct Ha as [->|Ha]; [reflexivity|]. destruct Hb as [->|Hb]; [reflexivity|]. pose proof (sorted_fst_head _ _ _ Hl Hb). pose proof (sorted_fst_head _ _ _ Hm Ha). lra. }
    subst b. f_equal. apply IH; [eapply Permutation_cons_inv; exact Hp|eapply sorted_fst_tail; exact Hl|eapply sorted_fst_tail; exact Hm|].
    intros p q Hp' Hq'. apply Hd; right; assumption.
Qed.
Definition flip_all (v : R) (l : list (R * R)) : list (R * R) := rev (map (fun xw => (flip v (fst xw), snd xw)) l).
Lemma flip_length v l : length (flip_all v l) = length l.
Proof. unfold flip_all. rewrite rev_length, map_length. reflexivity. Qed.
Lemma flip_nth v l i : (i < length l)%nat -> vget (map fst (flip_all v l)) i = flip v (vget (map fst l) (length l - 1 - i)) /\ vget (map snd (flip_all v l)) i = vget (map snd l) (length l - 1 - i).
Proof.
  intros Hi. unfold flip_all, vget. rewrite !map_rev, !map_map. cbn [fst snd]. rewrite !rev_nth by (rewrite map_length; exact Hi). rewrite !map_length. replace (length l - S i)%nat with (length l - 1 - i)%nat by lia.
  split; [|reflexivity]. rewrite <- (map_map fst (flip v)). rewrite (nth_indep _ 0 (flip v 0)) by (rewrite !map_length; lia). apply map_nth.
Qed.
Lemma rsum_rev n f : forall k, (k <= n)%nat -> rsum k (fun i => f (n - 1 - i)%nat) = rsum n f - rsum (n - k) f.
Proof.
  induction k as [|k IH]; intros Hk; [replace (n - 0)%nat with n by lia; cbn [rsum]; ring|]. cbn [rsum]. rewrite IH by lia.
  replace (n - k)%nat with (S (n - S k)) by lia. cbn [rsum]. replace (n - 1 - k)%nat with (n - S k)%nat by lia. ring.
Qed.
Lemma flip_wq v l i : l <> [] -> all_pos (map snd l) -> (i < length l)%nat -> vget (wquantiles (flip_all v l)) i = 1 - vget (wquantiles l) (length l - 1 - i).
Proof.
  intros Hne Hp Hi. rewrite !wquantiles_nth by (rewrite ?flip_length; lia). rewrite (proj2 (flip_nth v l i Hi)).
  assert (HW : 0 < lsum (map snd l)) by (apply all_pos_sum; [exact Hp|intros E; apply map_eq_nil in E; contradiction]).
  assert (EW : lsum (map snd (flip_all v l)) = lsum (map snd l)). { unfold flip_all. rewrite map_rev, map_map. cbn [snd]. apply lsum_perm, Permutation_sym, Permutation_rev. }
  rewrite EW. rewrite (rsum_ext i _ (fun k => vget (map snd l) (length l - 1 - k))) by (intros k Hk; apply (flip_nth v l k); lia). rewrite rsum_rev by lia.
  assert (EL : lsum (map snd l) = rsum (length l) (vget (map snd l))). { rewrite <- (map_length snd l). apply lsum_rsum. }
  rewrite EL in *. replace (length l - i)%nat with (S (length l - 1 - i)) by lia. cbn [rsum]. field. lra.
Qed.
Lemma flip_quantile v l p : l <> [] -> all_pos (map snd l) -> quantile_sorted (flip_all v l) (1 - p) = flip v (quantile_sorted l p).
Proof.
  intros Hne Hp. unfold quantile_sorted. rewrite flip_length. set (m := (length l - 1)%nat). assert (L : (0 < length l)%nat) by (destruct l; [contradiction|cbn; lia]).
  assert (X : forall i, (i <= m)%nat -> vget (wquantiles (flip_all v l)) i = 1 - vget (wquantiles l) (m - i)) by (intros i Hi; apply flip_wq; try assumption; unfold m in *; lia).
  assert (Y : forall i, (i <= m)%nat -> vget (map fst (flip_all v l)) i = flip v (vget (map fst l) (m - i))) by (intros i Hi; apply flip_nth; unfold m in *; lia).
  pose proof (wquantiles_incr l Hne Hp) as Hi. fold m in Hi.
  assert (Hne' : flip_all v l <> []) by (intros E; apply (f_equal (@length _)) in E; rewrite flip_length in E; cbn in E; lia).
  assert (Hp' : all_pos (map snd (flip_all v l))). { intros w Hw. apply Hp. unfold flip_all in Hw. rewrite map_rev, map_map in Hw. apply in_rev in Hw. exact Hw. }
  pose proof (wquantiles_incr _ Hne' Hp') as Hi'. rewrite flip_length in Hi'. fold m in Hi'.
  destruct (Nat.eq_dec m 0) as [E0|E0]; [rewrite E0, !np_interp_zero, Y by lia; rewrite E0; reflexivity|].
  set (a := vget (wquantiles l)) in *. set (a' := vget (wquantiles (flip_all v l))) in *. set (y := vget (map fst l)) in *. set (y' := vget (map fst (flip_all v l))) in *.
  unfold np_interp. rewrite (X 0%nat), (X m), (Y 0%nat), (Y m) by lia. replace (m - 0)%nat with m by lia. replace (m - m)%nat with 0%nat by lia.
  assert (A0 : a 0%nat < a m) by (apply Hi; lia).
  destruct (Rltb_spec (1 - p) (1 - a m)) as [C|C].
  - destruct (Rltb_spec p (a 0%nat)); [lra|]. destruct (Rltb_spec (a m) p); [reflexivity|lra].
  - destruct (Rltb_spec (1 - a 0%nat) (1 - p)) as [C'|C'].
    + destruct (Rltb_spec p (a 0%nat)); [reflexivity|lra].
    + destruct (Rltb_spec p (a 0%nat)); [lra|]. destruct (Rltb_spec (a m) p); [lra|].
      destruct (interp_bin_spec a m p ltac:(lia) (incr_nondecr _ _ Hi) ltac:(lra)) as [Hk Hin]. set (k := interp_bin a m p) in *. clearbody k.
      rewrite (interp_in a y m p k Hi Hk Hin).
      rewrite (interp_in a' y' m (1 - p) (m - S k) Hi'); [|lia|].
      * replace (S (m - S k)) with (m - k)%nat by lia. rewrite !X, !Y by lia. replace (m - (m - S k))%nat with (S k) by lia. replace (m - (m - k))%nat with k by lia. pose proof (Hi k (S k) ltac:(lia) ltac:(lia)). unfold flip. field. lra.
      * replace (S (m - S k)) with (m - k)%nat by lia. rewrite !X by lia. replace (m - (m - S k))%nat with (S k) by lia. replace (m - (m - k))%nat with k by lia. lra.
Qed.
Lemma sorted_flip v l : sorted_fst l -> sorted_fst (flip_all v l).
Proof.
  intros H i j Hij Hj. rewrite map_length, flip_length in Hj. change (vget (map fst (flip_all v l)) i <= vget (map fst (flip_all v l)) j). rewrite (proj1 (flip_nth v l i ltac:(lia))), (proj1 (flip_nth v l j Hj)). unfold flip.
  assert (vget (map fst l) (length l - 1 - j) <= vget (map fst l) (length l - 1 - i)); [|lra]. apply H; [lia|rewrite map_length; lia].
Qed.
Lemma fair_flip v xs ws : fair xs ws -> fair (map (flip v) xs) ws.
Proof.
  intros H p q Hp Hq E. rewrite combine_map_l in Hp, Hq. apply in_map_iff in Hp, Hq. destruct Hp as ([x w] & <- & Hp). destruct Hq as ([x' w'] & <- & Hq). cbn [fst snd] in *. unfold flip in E. specialize (H _ _ Hp Hq ltac:(cbn; lra)). inversion H. reflexivity.
Qed.
Theorem quantiles_flip sorter sorter' v values ws ps : sorts sorter -> sorts sorter' -> values <> [] -> length ws = length values -> all_pos ws -> fractions ps -> fair values ws ->
  exists qs, quantiles sorter values (Some ps) (Some ws) false = Ok qs /\ quantiles sorter' (map (flip v) values) (Some (map (fun p => 1 - p) ps)) (Some ws) false = Ok (map (flip v) qs).
Proof.
  intros Hs Hs' Hne Hl Hp Hf Hd. rewrite quantiles_run by assumption. eexists. split; [reflexivity|].
  rewrite quantiles_run; [|intros E; apply map_eq_nil in E; contradiction|rewrite map_length; exact Hl|intros p Hp'; apply in_map_iff in Hp'; destruct Hp' as (q & <- & Hq); specialize (Hf q Hq); lra].
  destruct (sorter_facts sorter values ws Hs Hne Hl Hp) as (H1 & H2 & H3 & _). destruct (Hs (combine values ws)) as [P1 _]. destruct (Hs' (combine (map (flip v) values) ws)) as [P2 S2].
  set (l := sorter (combine values ws)) in *.
  assert (E : sorter' (combine (map (flip v) values) ws) = flip_all v l).
  { apply fair_unique; [|exact S2|apply sorted_flip, H3|].
    - eapply Permutation_trans; [apply Permutation_sym, P2|]. rewrite combine_map_l. unfold flip_all. eapply Permutation_trans; [apply Permutation_map, P1|apply Permutation_rev].
    - intros p q Hp' Hq'. apply (fair_flip v values ws Hd); eapply Permutation_in; try exact Hp'; try exact Hq'; apply Permutation_sym, P2. }
  rewrite E, !map_map. f_equal. apply map_ext. intros p. apply flip_quantile; assumption.
Qed.
Theorem quantiles_fair sorter sorter' values ws values' ws' ps : sorts sorter -> sorts sorter' -> length ws = length values -> length ws' = length values' ->
  Permutation (combine values ws) (combine values' ws') -> fair values ws -> values <> [] -> fractions ps ->
  quantiles sorter values (Some ps) (Some ws) false = quantiles sorter' values' (Some ps) (Some ws') false.
Proof.
  intros Hs Hs' Hl Hl' HP Hd Hne Hf. assert (Hne' : values' <> []). { intros ->. cbn in HP. apply Permutation_sym, Permutation_nil in HP. destruct values; [contradiction|]. destruct ws; discriminate. }
  rewrite !quantiles_run by assumption. destruct (Hs (combine values ws)) as [P1 S1]. destruct (Hs' (combine values' ws')) as [P2 S2].
  assert (E : sorter (combine values ws) = sorter' (combine values' ws')).
  { apply fair_unique; [|assumption..|].
    - eapply Permutation_trans; [apply Permutation_sym, P1|]. eapply Permutation_trans; [exact HP|exact P2].
    - intros p q Hp Hq. apply Hd; eapply Permutation_in; try exact Hp; try exact Hq; apply Permutation_sym, P1. }
  rewrite E. reflexivity.
Qed.
Theorem quantiles_symmetric sorter v values ws p : sorts sorter -> values <> [] -> length ws = length values -> all_pos ws -> 0 <= p <= 1 -> fair values ws -> symmetric_about v values ws ->
  exists q q', quantiles sorter values (Some [p; 1 - p]) (Some ws) false = Ok [q; q'] /\ q + q' = 2 * v /\ (p = 1 / 2 -> q = v).
Proof.
  intros Hs Hne Hl Hp Hpr Hd Hsym.
  assert (Hf : fractions [p; 1 - p]) by (intros x [<-|[<-|[]]]; lra).
  destruct (quantiles_flip sorter sorter v values ws [p; 1 - p] Hs Hs Hne Hl Hp Hf Hd) as (qs & E1 & E2).
  assert (Ls : length (map (flip v) values) = length values) by apply map_length.
  rewrite (quantiles_fair sorter sorter (map (flip v) values) ws values ws) in E2; try assumption; [|congruence|apply fair_flip, Hd|intros E; apply map_eq_nil in E; contradiction|intros x Hx; cbn in Hx; destruct Hx as [<-|[<-|[]]]; lra].
  rewrite quantiles_run in E1, E2 by (try assumption; intros x Hx; cbn in Hx; destruct Hx as [<-|[<-|[]]]; lra). injection E1 as <-. cbn [map] in E2.
  rewrite quantiles_run by assumption. set (Q := quantile_sorted (sorter (combine values ws))) in *. exists (Q p), (Q (1 - p)). split; [reflexivity|]. injection E2 as E3 E4. unfold flip in E3.
  split; [lra|]. intros ->. replace (1 - 1 / 2) with (1 / 2) in E3 by lra. lra.
Qed.

(** C141: limits of the bandwidth. *)
From Coq Require Import FunctionalExtensionality.
From Coquelicot Require Import Coquelicot.
From Verif Require Import Base ModelLinAlg SpecLinAlg ModelKernels SpecKernels SpecIntegral ModelKDE SpecKDE SpecBandwidth
  ProofLinAlg ProofIntegral ProofKernels ProofDensity ProofAffine ProofShape ProofKDE ProofTop ProofTop2 ProofTop3 ProofCdfError ProofSlope ProofReflect1 ProofAlias.
Open Scope R_scope.
Notation length := List.length.

(** * Scaled integrals *)
Definition pscale (c : R) (x : pt) : pt := fun i => c * x i.
Lemma pscale_upd c x k t : pscale c (upd x k t) = upd (pscale c x) k (c * t).
Proof. apply functional_extensionality. intros i. unfold pscale, upd. destruct (Nat.eqb i k); reflexivity. Qed.
Lemma tintN_scale h : 0 < h -> forall n f base l, is_tintN n f (pscale (/ h) base) l -> is_tintN n (fun x => f (pscale (/ h) x)) base (h ^ n * l).
Proof.
  intros Hh. induction n as [|n IH]; intros f base l H; cbn [is_tintN pow] in *; [rewrite H; ring|].
  destruct H as [g [Hg Hl]]. exists (fun t => h ^ n * g (/ h * t)). split.
  - intros t. apply IH. rewrite pscale_upd. apply Hg.
  - replace (h * h ^ n * l) with (h ^ n * (l / / h)) by (field; lra). apply tint_scal.
    apply tint_ext with (fun x => g (/ h * x + 0)); [intros x; f_equal; ring|]. apply tint_comp_lin; [apply Rinv_0_lt_compat, Hh|exact Hl].
Qed.
Lemma quad_scale n N c x : quad n N (pscale c x) = c * c * quad n N x.
Proof. unfold quad, pscale. rewrite <- rsum_scal. apply rsum_ext. intros i _. rewrite <- rsum_scal. apply rsum_ext. intros j _. ring. Qed.

(** * A call with every bandwidth *)
Lemma family_built n data ws d C K h : family n data ws d C K -> 0 < h -> exists M, built_kde n data ws d M None (K h) /\ agree n M (fun i j => h * h * C i j).
Proof.
  intros (w & cova & neffa & Hg & HK & Hk & Hs & Hp) Hh. pose proof (HK h Hh) as Eh. pose proof (HK 1 Rlt_0_1) as E1.
  destruct (kde_init_inv _ _ _ _ _ _ _ _ _ _ _ Eh) as (bw & _ & _ & _ & _ & Ew & _ & Eb & Ek). destruct (kde_init_inv _ _ _ _ _ _ _ _ _ _ _ E1) as (bw1 & _ & _ & _ & _ & Ew1 & _ & Eb1 & Ek1).
  assert (EW : kd_weights (K h) = kd_weights (K 1)) by congruence. rewrite EW in Ek. rewrite Hk in Ek1. cbn in Eb, Eb1. injection Eb as <-. injection Eb1 as <-.
  destruct (match cova with Some c => Some c | None => np_cov (wdata_of data (kd_weights (K 1))) end) as [c|]; [|discriminate Ek1]. injection Ek1 as EC.
  set (M := kernel_matrix c (fun _ _ => h)) in *. assert (EA : forall i j, M i j = h * h * C i j) by (intros i j; unfold M; rewrite EC; unfold kernel_matrix; ring).
  exists M. split; [|intros i j _ _; apply EA]. split; [exists w, (BwAtom (BNum h)), false, None, cova, neffa; split; assumption|]. split; [exact Ek|]. split.
  - intros i j Hi Hj. rewrite !EA, (Hs i j Hi Hj). reflexivity.
  - intros x Hx. rewrite (quad_ext n M (fun i j => h * h * C i j) x x); [|intros i j _ _; apply EA|reflexivity].
    replace (quad n (fun i j => h * h * C i j) x) with (h * h * quad n C x).
    + apply Rmult_lt_0_compat; [apply Rmult_lt_0_compat; exact Hh|apply Hp, Hx].
    + unfold quad. rewrite <- rsum_scal. apply rsum_ext. intros i _. rewrite <- rsum_scal. apply rsum_ext. intros j _. ring.
Qed.

(** The density for every bandwidth, with one constant. *)
Definition bump (d : dist) (n : nat) (N : mat) (h : R) (wd : list (pt * R)) (x : pt) : R := sumf (fun dw => snd dw * spec_prof d (quad n N (psub x (fst dw)) / (h * h))) wd.
Lemma family_formula n data ws d C K N : (1 <= n)%nat -> family n data ws d C K -> is_inverse n C N ->
  exists Z, 0 < Z /\ (forall base, is_tintN n (fun y => spec_prof d (quad n N y)) base Z) /\ forall h (prob : bool), 0 < h ->
  exists f, kde_density (K h) prob n None PNone = Ok f /\ forall x, f x = mass prob ws / lsum ws / (h ^ n * Z) * bump d n N h (combine data ws) x.
Proof.
  intros Hn HF HN.
  assert (HA : forall h, 0 < h -> exists Zh f g, 0 < Zh /\ (forall base, is_tintN n (fun y => spec_prof d (quad n N y / (h * h))) base Zh) /\ 0 < lsum ws
    /\ kde_density (K h) false n None PNone = Ok f /\ kde_density (K h) true n None PNone = Ok g
    /\ (forall x, f x = mass false ws / lsum ws / Zh * bump d n N h (combine data ws) x) /\ (forall x, g x = mass true ws / lsum ws / Zh * bump d n N h (combine data ws) x)).
  { intros h Hh. destruct (family_built _ _ _ _ _ _ h HF Hh) as (M & HB & HM). set (Nh := fun i j => N i j / (h * h)).
    assert (HI : is_inverse n M Nh).
    { intros i j Hi Hj. destruct (HN i j Hi Hj) as [H1 H2]. rewrite <- H1 at 1. rewrite <- H2. split; apply rsum_ext; intros k Hk; rewrite (HM _ _) by assumption; unfold Nh; field; lra. }
    assert (EQ : forall y, quad n Nh y = quad n N y / (h * h)).
    { intros y. unfold Rdiv, quad. rewrite Rmult_comm, <- rsum_scal. apply rsum_ext. intros i _. rewrite <- rsum_scal. apply rsum_ext. intros j _. unfold Nh, Rdiv. ring. }
    destruct (top_textbook n data ws d M (K h) Nh Hn HB HI) as (Z0 & f & g & _ & _ & Hf & Hg & _).
    destruct (as_textbook _ _ _ _ _ _ _ _ _ Hn HB HI Hf) as (Z & HZ & HT & Hw & _ & Ef). destruct (as_textbook _ _ _ _ _ _ _ true _ Hn HB HI Hg) as (Z' & _ & HT' & _ & _ & Eg).
    rewrite (tintN_unique n _ (fun _ => 0) _ _ (HT' _) (HT _)) in Eg. exists Z, f, g. split; [exact HZ|]. split.
    - intros base. eapply tintN_ext; [|exact (HT base)]. intros x. cbv beta. rewrite EQ. reflexivity.
    - split; [exact Hw|]. split; [exact Hf|]. split; [exact Hg|]. assert (EB : forall x, spec_sum d n Nh (combine data ws) x = bump d n N h (combine data ws) x).
      { intros x. unfold spec_sum, bump. apply sumf_ext. intros [q w] _. cbn [fst snd]. rewrite EQ. reflexivity. }
      split; intros x; [rewrite Ef|rewrite Eg]; rewrite EB; reflexivity. }
  destruct (HA 1 Rlt_0_1) as (Z & _ & _ & HZ & HT & _). assert (HT1 : forall base, is_tintN n (fun y => spec_prof d (quad n N y)) base Z).
  { intros base. eapply tintN_ext; [|exact (HT base)]. intros x. cbv beta. f_equal. field. }
  exists Z. split; [exact HZ|]. split; [exact HT1|]. intros h prob Hh. destruct (HA h Hh) as (Zh & f & g & HZh & HTh & Hw & Hf & Hg & Ef & Eg).
  assert (EZ : Zh = h ^ n * Z).
  { apply (tintN_unique n _ (fun _ => 0) _ _ (HTh _)). eapply tintN_ext; [|exact (tintN_scale h Hh n _ (fun _ => 0) Z (HT1 _))]. intros x. cbv beta. rewrite quad_scale. f_equal. field. lra. }
  rewrite EZ in Ef, Eg. destruct prob; [exists g|exists f]; split; assumption.
Qed.

(** * Growing bandwidth *)
Lemma prof_le_1 d r : 0 <= r -> spec_prof d r <= 1.
Proof.
  intros Hr. destruct d; cbn [spec_prof]; try (destruct (Rle_dec r 1); lra).
  - rewrite <- exp_0. destruct Hr as [Hr|<-]; [left; apply exp_increasing; lra|right; f_equal; lra].
  - destruct (Rle_dec r 1); [|lra]. assert (H : 0 <= 1 - r <= 1) by lra. assert (H2 : 0 <= (1 - r) * (1 - r) <= 1).
    { split; [apply Rmult_le_pos; lra|]. apply Rle_trans with (1 * 1); [|lra]. apply Rmult_le_compat; lra. }
    apply Rle_trans with (1 * 1); [|lra]. apply Rmult_le_compat; lra.
Qed.
Lemma prof_pos d r : 0 <= spec_prof d r.
Proof. destruct d; cbn [spec_prof]; [left; apply exp_pos|destruct (Rle_dec r 1); lra|destruct (Rle_dec r 1); lra|destruct (Rle_dec r 1); [|lra]]. apply Rmult_le_pos; [apply Rmult_le_pos; lra|lra]. Qed.
Lemma prof_0 d : spec_prof d 0 = 1.
Proof. destruct d; cbn [spec_prof]; [replace (- (0 / 2)) with 0 by lra; apply exp_0| | |]; destruct (Rle_dec 0 1); lra. Qed.
Lemma bump_le d n N h wd x : 0 < h -> (forall y, 0 <= quad n N y) -> (forall p w, In (p, w) wd -> 0 <= w) -> 0 <= bump d n N h wd x <= sumf snd wd.
Proof.
  intros Hh HN Hw. unfold bump. split.
  - apply sumf_nonneg. intros [p w] H. cbn [fst snd]. apply Rmult_le_pos; [apply (Hw p w H)|apply prof_pos].
  - apply sumf_le. intros [p w] H. cbn [fst snd]. rewrite <- (Rmult_1_r w) at 2. apply Rmult_le_compat_l; [apply (Hw p w H)|]. apply prof_le_1. apply Rmult_le_pos; [apply HN|left; apply Rinv_0_lt_compat, Rmult_lt_0_compat; exact Hh].
Qed.
Lemma sympd_inverse n C : symmetric n C -> posdef n C -> exists N, is_inverse n C N.
Proof. intros Hs Hp. destruct (kernel_density_plain Gaussian n C [] None Hs Hp) as (N & _ & _ & _ & _ & Hi & _); [discriminate|]. exists N. exact Hi. Qed.
Lemma family_parts n data ws d C K : (1 <= n)%nat -> family n data ws d C K -> exists N, is_inverse n C N /\ (forall y, 0 <= quad n N y) /\ posdef n N
  /\ (forall p w, In (p, w) (combine data ws) -> 0 <= w) /\ 0 < lsum ws /\ sumf snd (combine data ws) = lsum ws.
Proof.
  intros Hn HF. destruct (family_built _ _ _ _ _ _ 1 HF Rlt_0_1) as (M & HB & _). destruct (built_inv _ _ _ _ _ _ _ HB) as (_ & _ & _ & _ & _ & Hl & Hnn & Hw & _).
  destruct HF as (w & cova & neffa & _ & _ & _ & Hs & Hp). destruct (sympd_inverse n C Hs Hp) as [N HN]. destruct (inverse_sympd n C N Hs Hp HN) as [_ HpN]. exists N.
  split; [exact HN|]. split; [intros y; apply (pd_nonneg n N HpN)|]. split; [exact HpN|]. split; [intros p v H; apply Hnn; exact (in_combine_r _ _ _ _ H)|]. split; [exact Hw|].
  apply sumf_snd_combine. exact Hl.
Qed.
Lemma pow_ge_self h n : (1 <= n)%nat -> 1 <= h -> h <= h ^ n.
Proof. intros Hn Hh. destruct n as [|n]; [lia|]. cbn [pow]. rewrite <- (Rmult_1_r h) at 1. apply Rmult_le_compat_l; [lra|]. apply pow_R1_Rle, Hh. Qed.
Lemma pow_le_self h n : (1 <= n)%nat -> 0 <= h <= 1 -> h ^ n <= h.
Proof. intros Hn Hh. destruct n as [|n]; [lia|]. cbn [pow]. apply Rle_trans with (h * 1); [|lra]. apply Rmult_le_compat_l; [lra|]. rewrite <- (pow1 n). apply pow_incr. lra. Qed.
Lemma large_bandwidth n data ws d C K (prob : bool) eps : (1 <= n)%nat -> family n data ws d C K -> 0 < eps ->
  exists H, 0 < H /\ forall h f, H < h -> kde_density (K h) prob n None PNone = Ok f -> forall x, 0 <= f x < eps.
Proof.
  intros Hn HF He. destruct (family_parts _ _ _ _ _ _ Hn HF) as (N & HN & HQ & _ & Hw & HW & HS). destruct (family_formula _ _ _ _ _ _ N Hn HF HN) as (Z & HZ & _ & HH).
  assert (Hm : 0 < mass prob ws) by (destruct prob; cbn; lra). set (c := mass prob ws / lsum ws / Z). assert (Hc : 0 < c) by (repeat apply Rdiv_lt_0_compat; assumption).
  assert (Hq : 0 < c * lsum ws / eps) by (apply Rdiv_lt_0_compat; [apply Rmult_lt_0_compat; assumption|exact He]). exists (Rmax 1 (c * lsum ws / eps)). split; [apply Rlt_le_trans with 1; [lra|apply Rmax_l]|].
  intros h f Hh Hf x. assert (H1 : 1 < h) by (apply Rle_lt_trans with (2 := Hh); apply Rmax_l). assert (H2 : c * lsum ws / eps < h) by (apply Rle_lt_trans with (2 := Hh); apply Rmax_r).
  destruct (HH h prob ltac:(lra)) as (f' & Hf' & Ef). rewrite Hf in Hf'. injection Hf' as <-. rewrite Ef. pose proof (bump_le d n N h (combine data ws) x ltac:(lra) HQ Hw) as HB. rewrite HS in HB.
  pose proof (pow_ge_self h n Hn ltac:(lra)) as HP. assert (HP0 : 0 < h ^ n) by lra.
  replace (mass prob ws / lsum ws / (h ^ n * Z)) with (c / h ^ n) by (unfold c; field; repeat split; lra).
  assert (Hch : 0 < c / h ^ n) by (apply Rdiv_lt_0_compat; assumption). split; [apply Rmult_le_pos; lra|].
  apply Rle_lt_trans with (c / h ^ n * lsum ws); [apply Rmult_le_compat_l; lra|]. apply Rmult_lt_reg_r with (h ^ n / eps); [apply Rdiv_lt_0_compat; assumption|].
  replace (c / h ^ n * lsum ws * (h ^ n / eps)) with (c * lsum ws / eps) by (field; split; lra). replace (eps * (h ^ n / eps)) with (h ^ n) by (field; lra). lra.
Qed.

(** * Shrinking bandwidth *)
Lemma prof_decay d n r : (1 <= n)%nat -> 0 < r -> spec_prof d r <= (2 * INR n / r) ^ n.
Proof.
  intros Hn Hr. assert (Hin : 1 <= INR n) by (apply (le_INR 1); exact Hn). assert (Hb : d <> Gaussian -> spec_prof d r <= (2 * INR n / r) ^ n).
  { intros Hd. destruct (Rle_dec r 1) as [H|H].
    - apply Rle_trans with 1; [apply prof_le_1; lra|]. apply pow_R1_Rle. apply Rmult_le_reg_r with r; [exact Hr|]. replace (2 * INR n / r * r) with (2 * INR n) by (field; lra). lra.
    - replace (spec_prof d r) with 0; [apply pow_le; apply Rlt_le, Rdiv_lt_0_compat; lra|]. destruct d; [congruence| | |]; cbn [spec_prof]; destruct (Rle_dec r 1); lra. }
  destruct d; try (apply Hb; discriminate). cbn [spec_prof]. clear Hb.
  assert (E : exp (- (r / 2)) = exp (- (r / (2 * INR n))) ^ n).
  { rewrite <- (Rpower_pow n) by apply exp_pos. unfold Rpower. rewrite ln_exp. f_equal. field. lra. }
  rewrite E. apply pow_incr. split; [left; apply exp_pos|]. rewrite exp_Ropp. replace (2 * INR n / r) with (/ (r / (2 * INR n))) by (field; lra).
  apply Rinv_le_contravar; [apply Rdiv_lt_0_compat; lra|]. pose proof (exp_ineq1 (r / (2 * INR n))). assert (0 < r / (2 * INR n)) by (apply Rdiv_lt_0_compat; lra). lra.
Qed.
Lemma far_positive n N x p : posdef n N -> ~ same_point n x p -> 0 < quad n N (psub x p).
Proof.
  intros HN Hx. apply HN. apply Classical_Prop.NNPP. intros Hno. apply Hx. intros i Hi. apply Classical_Prop.NNPP. intros Hne. apply Hno. exists i. split; [exact Hi|]. unfold psub. lra.
Qed.
Lemma bump_small d n N wd x : (1 <= n)%nat -> posdef n N -> (forall p w, In (p, w) wd -> 0 <= w /\ (0 < w -> ~ same_point n x p)) ->
  exists c, 0 <= c /\ forall h, 0 < h -> h <= 1 -> bump d n N h wd x <= c * (h ^ n * h).
Proof.
  intros Hn HN. induction wd as [|[p w] wd IH]; intros Hwd; [exists 0; split; [lra|]; intros h _ _; unfold bump; cbn; lra|].
  destruct IH as (c & Hc & Hb); [intros q v H; apply Hwd; right; exact H|]. destruct (Hwd p w (or_introl eq_refl)) as [Hw Hx].
  assert (exists e, 0 <= e /\ forall h, 0 < h -> h <= 1 -> w * spec_prof d (quad n N (psub x p) / (h * h)) <= e * (h ^ n * h)) as (e & He & Hb').
  { destruct Hw as [Hw|<-]; [|exists 0; split; [lra|intros h _ _; lra]]. pose proof (far_positive n N x p HN (Hx Hw)) as Hq. set (q := quad n N (psub x p)) in *. assert (Hin : 1 <= INR n) by (apply (le_INR 1); exact Hn).
    assert (H0 : 0 < (2 * INR n / q) ^ n) by (apply pow_lt, Rdiv_lt_0_compat; lra).
    exists (w * (2 * INR n / q) ^ n). split; [apply Rmult_le_pos; lra|]. intros h Hh H1. rewrite Rmult_assoc. apply Rmult_le_compat_l; [lra|].
    assert (Hhh : 0 < h * h) by (apply Rmult_lt_0_compat; exact Hh).
    apply Rle_trans with (1 := prof_decay d n (q / (h * h)) Hn (Rdiv_lt_0_compat _ _ Hq Hhh)). replace (2 * INR n / (q / (h * h))) with (2 * INR n / q * h * h) by (field; repeat split; lra).
    rewrite !Rpow_mult_distr, Rmult_assoc. apply Rmult_le_compat_l; [lra|]. apply Rmult_le_compat_l; [apply pow_le; lra|]. apply pow_le_self; [exact Hn|lra]. }
  exists (e + c). split; [lra|]. intros h Hh H1. unfold bump. rewrite sumf_cons. cbn [fst snd]. pose proof (Hb h Hh H1). pose proof (Hb' h Hh H1). unfold bump in H. lra.
Qed.
Lemma small_bandwidth n data ws d C K (prob : bool) x eps : (1 <= n)%nat -> family n data ws d C K -> (forall p w, In (p, w) (combine data ws) -> 0 < w -> ~ same_point n x p) -> 0 < eps ->
  exists h0, 0 < h0 /\ forall h f, 0 < h < h0 -> kde_density (K h) prob n None PNone = Ok f -> 0 <= f x < eps.
Proof.
  intros Hn HF Hx He. destruct (family_parts _ _ _ _ _ _ Hn HF) as (N & HN & HQ & HpN & Hw & HW & HS). destruct (family_formula _ _ _ _ _ _ N Hn HF HN) as (Z & HZ & _ & HH).
  destruct (bump_small d n N (combine data ws) x Hn HpN) as (c & Hc & Hb); [intros p w H; split; [apply (Hw p w H)|apply (Hx p w H)]|].
  assert (Hm : 0 < mass prob ws) by (destruct prob; cbn; lra). set (m := mass prob ws / lsum ws / Z). assert (Hm' : 0 < m) by (repeat apply Rdiv_lt_0_compat; assumption).
  assert (H1 : 0 < eps / (m * (c + 1))) by (apply Rdiv_lt_0_compat; [exact He|apply Rmult_lt_0_compat; lra]).
  exists (Rmin 1 (eps / (m * (c + 1)))). split; [apply Rmin_glb_lt; lra|]. intros h f [Hh Hlt] Hf. assert (h < 1) by (apply Rlt_le_trans with (1 := Hlt); apply Rmin_l).
  assert (H2 : h < eps / (m * (c + 1))) by (apply Rlt_le_trans with (1 := Hlt); apply Rmin_r). destruct (HH h prob Hh) as (f' & Hf' & Ef). rewrite Hf in Hf'. injection Hf' as <-. rewrite Ef.
  pose proof (bump_le d n N h (combine data ws) x Hh HQ Hw) as [HB _]. assert (HP : 0 < h ^ n) by (apply pow_lt, Hh). replace (mass prob ws / lsum ws / (h ^ n * Z)) with (m / h ^ n) by (unfold m; field; repeat split; lra).
  assert (Hmh : 0 < m / h ^ n) by (apply Rdiv_lt_0_compat; assumption). split; [apply Rmult_le_pos; lra|].
  apply Rle_lt_trans with (m / h ^ n * (c * (h ^ n * h))); [apply Rmult_le_compat_l; [lra|apply Hb; lra]|]. replace (m / h ^ n * (c * (h ^ n * h))) with (m * c * h) by (field; lra).
  apply Rle_lt_trans with (m * (c + 1) * h); [apply Rmult_le_compat_r; [lra|apply Rmult_le_compat_l; lra]|]. apply Rmult_lt_reg_r with (/ (m * (c + 1))); [apply Rinv_0_lt_compat, Rmult_lt_0_compat; lra|].
  replace (m * (c + 1) * h * / (m * (c + 1))) with h by (field; split; lra). exact H2.
Qed.
Lemma bump_ge d n N h wd x p w : 0 < h -> (forall y, 0 <= quad n N y) -> (forall q v, In (q, v) wd -> 0 <= v) -> In (p, w) wd -> same_point n x p -> w <= bump d n N h wd x.
Proof.
  intros Hh HQ. assert (Hhh : 0 < h * h) by (apply Rmult_lt_0_compat; exact Hh). induction wd as [|[q v] wd IH]; intros Hw [] Hs.
  - injection H as -> ->. pose proof (bump_le d n N h wd x Hh HQ (fun q v H => Hw q v (or_intror H))) as [HB _]. unfold bump in *. rewrite sumf_cons. cbn [fst snd].
    replace (quad n N (psub x p)) with 0; [unfold Rdiv; rewrite Rmult_0_l, prof_0; lra|]. symmetry. unfold quad. apply rsum_zero_ext. intros i Hi. apply rsum_zero_ext. intros j Hj. unfold psub. rewrite (Hs i Hi). ring.
  - specialize (IH (fun q v H => Hw q v (or_intror H)) H Hs). unfold bump in *. rewrite sumf_cons. cbn [fst snd]. pose proof (Hw q v (or_introl eq_refl)) as Hv.
    pose proof (prof_pos d (quad n N (psub x q) / (h * h))) as HP. pose proof (Rmult_le_pos _ _ Hv HP). lra.
Qed.
Lemma spike n data ws d C K (prob : bool) x p w B : (1 <= n)%nat -> family n data ws d C K -> In (p, w) (combine data ws) -> 0 < w -> same_point n x p ->
  exists h0, 0 < h0 /\ forall h f, 0 < h < h0 -> kde_density (K h) prob n None PNone = Ok f -> B < f x.
Proof.
  intros Hn HF Hin Hw0 Hx. destruct (family_parts _ _ _ _ _ _ Hn HF) as (N & HN & HQ & HpN & Hw & HW & HS). destruct (family_formula _ _ _ _ _ _ N Hn HF HN) as (Z & HZ & _ & HH).
  assert (Hm : 0 < mass prob ws) by (destruct prob; cbn; lra). set (m := mass prob ws / lsum ws / Z). assert (Hm' : 0 < m) by (repeat apply Rdiv_lt_0_compat; assumption).
  set (b := Rmax B 0 + 1). assert (Hb : 0 < b /\ B < b) by (unfold b; pose proof (Rmax_l B 0); pose proof (Rmax_r B 0); lra). assert (Hmw : 0 < m * w) by (apply Rmult_lt_0_compat; assumption).
  assert (H1 : 0 < m * w / b) by (apply Rdiv_lt_0_compat; lra).
  exists (Rmin 1 (m * w / b)). split; [apply Rmin_glb_lt; lra|]. intros h f [Hh Hlt] Hf. assert (h < 1) by (apply Rlt_le_trans with (1 := Hlt); apply Rmin_l).
  assert (H2 : h < m * w / b) by (apply Rlt_le_trans with (1 := Hlt); apply Rmin_r). destruct (HH h prob Hh) as (f' & Hf' & Ef). rewrite Hf in Hf'. injection Hf' as <-. rewrite Ef.
  pose proof (bump_ge d n N h _ x p w Hh HQ Hw Hin Hx) as HB. assert (HP : 0 < h ^ n) by (apply pow_lt, Hh). pose proof (pow_le_self h n Hn ltac:(lra)) as HP1.
  replace (mass prob ws / lsum ws / (h ^ n * Z)) with (m / h ^ n) by (unfold m; field; repeat split; lra). assert (Hmh : 0 < m / h ^ n) by (apply Rdiv_lt_0_compat; assumption).
  apply Rlt_le_trans with (m / h ^ n * w); [|apply Rmult_le_compat_l; lra]. apply Rlt_trans with b; [lra|]. apply Rmult_lt_reg_r with (h ^ n / b); [apply Rdiv_lt_0_compat; lra|].
  replace (m / h ^ n * w * (h ^ n / b)) with (m * w / b) by (field; lra). replace (b * (h ^ n / b)) with (h ^ n) by (field; lra). lra.
Qed.

(** * Concentration on the data in one dimension *)
Lemma tint_tails g Z : is_tint g Z -> forall eps, 0 < eps -> exists M, 0 < M /\ (forall a b, a < - M -> M < b -> exists y, is_RInt g a b y /\ Rabs (y - Z) < eps)
  /\ (forall a b, M < a -> M < b -> exists y, is_RInt g a b y /\ Rabs y < eps) /\ (forall a b, a < - M -> b < - M -> exists y, is_RInt g a b y /\ Rabs y < eps).
Proof.
  intros H eps He. destruct (proj1 (tint_iff g Z) H (eps / 2) ltac:(lra)) as (M & HM). exists (Rmax M 0 + 1). set (L := Rmax M 0 + 1).
  assert (HL : M < L /\ 0 < L) by (unfold L; pose proof (Rmax_l M 0); pose proof (Rmax_r M 0); lra). split; [lra|]. split; [|split].
  - intros a b Ha Hb. destruct (HM a b ltac:(lra) ltac:(lra)) as (y & Hy & E). exists y. split; [exact Hy|lra].
  - intros a b Ha Hb. destruct (HM (- L - 1) a ltac:(lra) ltac:(lra)) as (y & Hy & E). destruct (HM (- L - 1) b ltac:(lra) ltac:(lra)) as (z & Hz & E').
    exists (plus (opp y) z). split; [apply (is_RInt_Chasles g a (- L - 1) b); [apply is_RInt_swap; exact Hy|exact Hz]|]. unfold plus, opp; cbn. apply Rabs_def2 in E, E'. apply Rabs_def1; lra.
  - intros a b Ha Hb. destruct (HM a (L + 1) ltac:(lra) ltac:(lra)) as (y & Hy & E). destruct (HM b (L + 1) ltac:(lra) ltac:(lra)) as (z & Hz & E').
    exists (plus y (opp z)). split; [apply (is_RInt_Chasles g a (L + 1) b); [exact Hy|apply is_RInt_swap; exact Hz]|]. unfold plus, opp; cbn. apply Rabs_def2 in E, E'. apply Rabs_def1; lra.
Qed.
Lemma rescaled_piece g x h a b y : 0 < h -> is_RInt g ((a - x) / h) ((b - x) / h) y -> is_RInt (fun t => g ((t - x) / h)) a b (h * y).
Proof.
  intros Hh H. replace ((a - x) / h) with (/ h * a + - x / h) in H by (field; lra). replace ((b - x) / h) with (/ h * b + - x / h) in H by (field; lra). apply is_RInt_comp_lin in H.
  pose proof (is_RInt_scal _ _ _ h _ H) as H'. apply is_RInt_ext with (2 := H'). intros t _. cbv beta. unfold scal; cbn; unfold mult; cbn. replace (/ h * t + - x / h) with ((t - x) / h) by (field; lra). field. lra.
Qed.
Definition between (a b x : R) : R := if Rlt_dec a x then if Rlt_dec x b then 1 else 0 else 0.
Lemma piece_limit g Z a b x : is_tint g Z -> a < b -> x <> a -> x <> b -> forall eps, 0 < eps -> exists h0, 0 < h0 /\ forall h, 0 < h < h0 ->
  exists y, is_RInt (fun t => g ((t - x) / h)) a b (h * y) /\ Rabs (y - between a b x * Z) < eps.
Proof.
  intros HT Hab Ha Hb eps He. destruct (tint_tails g Z HT eps He) as (M & HM & H1 & H2 & H3). set (m := Rmin (Rabs (a - x)) (Rabs (b - x))).
  assert (Hm : 0 < m) by (apply Rmin_glb_lt; apply Rabs_pos_lt; lra). exists (m / M). split; [apply Rdiv_lt_0_compat; assumption|]. intros h [Hh Hlt].
  assert (Hmh : M * h < m) by (apply Rmult_lt_reg_r with (/ M); [apply Rinv_0_lt_compat, HM|]; replace (M * h * / M) with h by (field; lra); exact Hlt).
  assert (HA : M * h < Rabs (a - x)) by (apply Rlt_le_trans with (1 := Hmh); apply Rmin_l). assert (HB : M * h < Rabs (b - x)) by (apply Rlt_le_trans with (1 := Hmh); apply Rmin_r).
  assert (up : forall u, M * h < u -> M < u / h) by (intros u Hu; apply Rmult_lt_reg_r with h; [exact Hh|]; replace (u / h * h) with u by (field; lra); exact Hu).
  assert (dn : forall u, u < - (M * h) -> u / h < - M) by (intros u Hu; apply Rmult_lt_reg_r with h; [exact Hh|]; replace (u / h * h) with u by (field; lra); lra).
  unfold between. destruct (Rlt_dec a x) as [Hax|Hax].
  - rewrite Rabs_left in HA by lra. destruct (Rlt_dec x b) as [Hxb|Hxb].
    + rewrite Rabs_right in HB by lra. destruct (H1 ((a - x) / h) ((b - x) / h)) as (y & Hy & E); [apply dn; lra|apply up; lra|]. exists y. split; [apply rescaled_piece; assumption|]. rewrite Rmult_1_l. exact E.
    + rewrite Rabs_left in HB by lra. destruct (H3 ((a - x) / h) ((b - x) / h)) as (y & Hy & E); [apply dn; lra|apply dn; lra|]. exists y. split; [apply rescaled_piece; assumption|]. rewrite Rmult_0_l, Rminus_0_r. exact E.
  - rewrite Rabs_right in HA by lra. rewrite Rabs_right in HB by lra. destruct (H2 ((a - x) / h) ((b - x) / h)) as (y & Hy & E); [apply up; lra|apply up; lra|]. exists y. split; [apply rescaled_piece; assumption|].
    rewrite Rmult_0_l, Rminus_0_r. exact E.
Qed.
Lemma bump_limit d (N : mat) Z a b wd : is_tint (fun t => spec_prof d (N O O * (t * t))) Z -> a < b -> (forall p w, In (p, w) wd -> 0 <= w /\ (0 < w -> p O <> a /\ p O <> b)) ->
  forall eps, 0 < eps -> exists h0, 0 < h0 /\ forall h, 0 < h < h0 -> exists y, is_RInt (fun t => bump d 1 N h wd (pt1 t)) a b (h * y) /\ Rabs (y - Z * sumf (fun dw => snd dw * between a b (fst dw O)) wd) < eps.
Proof.
  intros HT Hab. induction wd as [|[p w] wd IH]; intros Hwd eps He.
  - exists 1. split; [lra|]. intros h [Hh _]. exists 0. split.
    + replace (h * 0) with (scal (b - a) 0) by (unfold scal; cbn; unfold mult; cbn; ring). apply (is_RInt_const a b 0).
    + unfold sumf; cbn. rewrite Rmult_0_r, Rminus_0_r, Rabs_R0. exact He.
  - destruct (IH (fun p w H => Hwd p w (or_intror H)) (eps / 2) ltac:(lra)) as (h1 & Hh1 & H1). destruct (Hwd p w (or_introl eq_refl)) as [Hw Hp].
    assert (exists h0, 0 < h0 /\ forall h, 0 < h < h0 -> exists y, is_RInt (fun t => w * spec_prof d (N O O * ((t - p O) / h * ((t - p O) / h)))) a b (h * (w * y)) /\ Rabs (w * y - w * (between a b (p O) * Z)) < eps / 2) as (h2 & Hh2 & H2).
    { destruct Hw as [Hw|<-].
      - destruct (piece_limit _ Z a b (p O) HT Hab (proj1 (Hp Hw)) (proj2 (Hp Hw)) (eps / 2 / w)) as (h0 & Hh0 & HH); [repeat apply Rdiv_lt_0_compat; lra|]. exists h0. split; [exact Hh0|]. intros h Hh.
        destruct (HH h Hh) as (y & Hy & E). exists y. split; [replace (h * (w * y)) with (scal w (h * y)) by (unfold scal; cbn; unfold mult; cbn; ring); apply (is_RInt_scal _ _ _ w _ Hy)|].
        rewrite <- Rmult_minus_distr_l, Rabs_mult, (Rabs_right w) by lra. apply Rmult_lt_reg_r with (/ w); [apply Rinv_0_lt_compat, Hw|]. replace (w * Rabs (y - between a b (p O) * Z) * / w) with (Rabs (y - between a b (p O) * Z)) by (field; lra). exact E.
      - exists 1. split; [lra|]. intros h Hh. exists 0. split; [|rewrite !Rmult_0_l, Rminus_0_r, Rabs_R0; lra].
        apply is_RInt_ext with (fun _ => 0); [intros t _; symmetry; apply Rmult_0_l|]. replace (h * (0 * 0)) with (scal (b - a) 0) by (unfold scal; cbn; unfold mult; cbn; ring). apply (is_RInt_const a b 0). }
    exists (Rmin h1 h2). split; [apply Rmin_glb_lt; assumption|]. intros h [Hh Hlt]. pose proof (Rmin_l h1 h2). pose proof (Rmin_r h1 h2).
    destruct (H1 h ltac:(lra)) as (y & Hy & E). destruct (H2 h ltac:(lra)) as (z & Hz & E'). exists (w * z + y). split.
    + replace (h * (w * z + y)) with (plus (h * (w * z)) (h * y)) by (unfold plus; cbn; ring). pose proof (is_RInt_plus _ _ _ _ _ _ Hz Hy) as HP. apply is_RInt_ext with (2 := HP).
      intros t _. unfold bump. rewrite sumf_cons. cbn [fst snd]. rewrite quad_1. unfold plus; cbn -[spec_prof]. unfold psub, pt1. f_equal. f_equal. f_equal. field. lra.
    + rewrite sumf_cons. cbn [fst snd]. apply Rabs_def2 in E, E'. apply Rabs_def1; lra.
Qed.
Lemma concentration data ws d C K (prob : bool) a b eps : family 1 data ws d C K -> a < b -> (forall p w, In (p, w) (combine data ws) -> 0 < w -> p O <> a /\ p O <> b) -> 0 < eps ->
  exists h0, 0 < h0 /\ forall h f, 0 < h < h0 -> kde_density (K h) prob 1 None PNone = Ok f ->
  exists I, is_RInt (fun t => f (pt1 t)) a b I /\ Rabs (I - mass prob ws * (weight_between a b data ws / lsum ws)) < eps.
Proof.
  intros HF Hab Hx He. destruct (family_parts _ _ _ _ _ _ (le_n 1) HF) as (N & HN & HQ & HpN & Hw & HW & HS). destruct (family_formula _ _ _ _ _ _ N (le_n 1) HF HN) as (Z & HZ & HT & HH).
  assert (HT1 : is_tint (fun t => spec_prof d (N O O * (t * t))) Z).
  { pose proof (proj1 (tintN_1 _ _ _) (HT (fun _ => 0))) as H1. eapply tint_ext; [|exact H1]. intros t. cbv beta. rewrite quad_1. reflexivity. }
  assert (Hm : 0 < mass prob ws) by (destruct prob; cbn; lra). set (m := mass prob ws / lsum ws / Z). assert (Hm' : 0 < m) by (repeat apply Rdiv_lt_0_compat; assumption).
  destruct (bump_limit d N Z a b (combine data ws) HT1 Hab) with (eps := eps / m) as (h0 & Hh0 & HB); [intros p w H; split; [apply (Hw p w H)|apply (Hx p w H)]|apply Rdiv_lt_0_compat; assumption|].
  exists h0. split; [exact Hh0|]. intros h f Hh Hf. destruct (HB h Hh) as (y & Hy & E). destruct (HH h prob (proj1 Hh)) as (f' & Hf' & Ef). rewrite Hf in Hf'. injection Hf' as <-.
  assert (EW : weight_between a b data ws = sumf (fun dw => snd dw * between a b (fst dw O)) (combine data ws)).
  { unfold weight_between. fold (sumf (fun dw : pt * R => if Rlt_dec a (fst dw O) then if Rlt_dec (fst dw O) b then snd dw else 0 else 0) (combine data ws)). apply sumf_ext. intros [p w] _. cbn [fst snd]. unfold between.
    destruct (Rlt_dec a (p O)); [destruct (Rlt_dec (p O) b)|]; ring. }
  exists (m * y). split.
  - pose proof (is_RInt_scal _ _ _ (m / h) _ Hy) as HI. assert (EI : m / h * (h * y) = m * y) by (field; lra). rewrite <- EI. apply is_RInt_ext with (2 := HI).
    intros t _. rewrite Ef. unfold scal; cbn -[bump]; unfold mult; cbn -[bump]. unfold m. field. repeat split; lra.
  - rewrite EW. replace (mass prob ws * (sumf (fun dw => snd dw * between a b (fst dw O)) (combine data ws) / lsum ws)) with (m * (Z * sumf (fun dw => snd dw * between a b (fst dw O)) (combine data ws))) by (unfold m; field; split; lra).
    rewrite <- Rmult_minus_distr_l, Rabs_mult, (Rabs_right m) by lra. apply Rmult_lt_reg_r with (/ m); [apply Rinv_0_lt_compat, Hm'|].
    replace (m * Rabs (y - Z * sumf (fun dw => snd dw * between a b (fst dw O)) (combine data ws)) * / m) with (Rabs (y - Z * sumf (fun dw => snd dw * between a b (fst dw O)) (combine data ws))) by (field; lra). exact E.
Qed.

(** * Examples *)
Definition pair_family (a b : R) (d : dist) (C : mat) (h : R) : kde := mkKDE 1 (pair_data a b) None 2 (Some (mkKernel d 1 (kernel_matrix C (fun _ _ => h)))) None.
Lemma pair_is_family a b d : a < b -> exists C, family 1 (pair_data a b) [1; 1] d C (pair_family a b d C).
Proof.
  intros Hab. destruct (pair_init a b d) as (C & H1 & E). assert (HC : 0 < C O O) by (rewrite E; apply Rdiv_lt_0_compat; [apply Rmult_lt_0_compat|]; lra).
  destruct (posdef_1 C HC) as [Hs Hp]. exists C, WNone, (Some C), (Some 2). split; [left; split; reflexivity|]. split; [|split; [cbn; rewrite kernel_matrix_1; reflexivity|split; assumption]].
  intros h Hh. unfold kde_init. cbn [length pair_data Nat.eqb check_weights bind set_bandwidth compute_bandwidth]. unfold kernel_init, pair_family. reflexivity.
Qed.
Lemma two_weight : weight_between (-1) 1 (pair_data 0 2) [1; 1] / lsum [1; 1] = 1 / 2.
Proof. unfold weight_between. cbn [pair_data combine map fst snd lsum]. unfold pt1. repeat destruct Rlt_dec; try lra; unfold lsum; cbn; field. Qed.

(** The slope of the density at reflecting boundaries. *)
From Coquelicot Require Import Coquelicot.
From Coq Require Import FunctionalExtensionality.
From Verif Require Import Base ModelLinAlg SpecLinAlg ModelKernels SpecKernels SpecIntegral ModelKDE SpecKDE SpecContinuous SpecShape SpecSlope SpecReflected SpecEdgeSlope
  ProofLinAlg ProofIntegral ProofKernels ProofDensity ProofTop ProofTop2 ProofTop3 ProofGrid3 ProofExamples ProofKDE ProofReflect1 ProofReflected ProofCdfError ProofShape ProofSlope.
Open Scope R_scope.
Notation length := List.length.

(** * The mirrored density *)
Lemma apart_inverse n M N i : (i < n)%nat -> symmetric n M -> posdef n M -> is_inverse n M N -> apart n M i -> apart n N i.
Proof.
  intros Hi Hs Hp HN HA j Hj Hne. destruct (HN i j Hi Hj) as [H _].
  rewrite (rsum_ext n _ (fun k => if Nat.eqb k i then M i k * N k j else 0)) in H.
  - rewrite (rsum_delta n (fun k => M i k * N k j)) in H by exact Hi. unfold ident in H. destruct (Nat.eqb_spec i j) as [E|_]; [congruence|].
    pose proof (posdef_diag_pos n M i Hp Hi) as HM. apply Rmult_integral in H. destruct H as [H|H]; [lra|exact H].
  - intros k Hk. destruct (Nat.eqb_spec k i) as [|E]; [reflexivity|]. rewrite (HA k Hk E). ring.
Qed.
Lemma quad_flip n N i (y z : pt) : symmetric n N -> apart n N i -> (forall k, k <> i -> y k = z k) -> y i = - z i -> quad n N y = quad n N z.
Proof.
  intros Hs HA H1 H2. unfold quad. apply rsum_ext. intros a Ha. apply rsum_ext. intros b Hb.
  destruct (Nat.eq_dec a i) as [->|Ea]; destruct (Nat.eq_dec b i) as [->|Eb].
  - rewrite H2. ring.
  - rewrite (HA b Hb Eb). ring.
  - rewrite (Hs a i Ha Hb), (HA a Ha Ea). ring.
  - rewrite (H1 a Ea), (H1 b Eb). reflexivity.
Qed.
Lemma sum_flip d n N i v wd x : symmetric n N -> apart n N i -> spec_sum d n N (mirrored_data i v wd) x = spec_sum d n N wd (mirrored i v x).
Proof.
  intros Hs HA. unfold spec_sum, sumf, mirrored_data. rewrite map_map. f_equal. apply map_ext. intros [p w]. cbn [fst snd]. f_equal. f_equal.
  apply quad_flip with i; [exact Hs|exact HA| |]; unfold psub, mirrored.
  - intros k Hk. destruct (Nat.eq_dec k i); [contradiction|reflexivity].
  - destruct (Nat.eq_dec i i); [ring|contradiction].
Qed.
Lemma rsum_only n (s : nat -> R) i : (i < n)%nat -> (forall j, (j < n)%nat -> j <> i -> s j = 0) -> rsum n s = s i.
Proof.
  intros Hi H. rewrite (rsum_ext n s (fun k => if Nat.eqb k i then s k else 0)); [apply rsum_delta; exact Hi|].
  intros k Hk. destruct (Nat.eqb_spec k i); [reflexivity|apply H; assumption].
Qed.
Lemma only_within n r i b x : only n r i b -> within r x i -> forall j, within_from r x j.
Proof. intros (_ & _ & _ & Ho) H j k _. destruct (Nat.eq_dec k i) as [->|E]; [exact H|apply within_none, Ho, E]. Qed.

(** With boundaries in one dimension the density is that without them plus the reversed ones. *)
Lemma images n data ws d M K (prob : bool) (r : reflspec) i b f g x : built_kde n data ws d M None K -> only n r i b ->
  kde_density K prob n (Some r) PNone = Ok f -> kde_density K prob n None PNone = Ok g ->
  exists N c, is_inverse n M N /\ 0 < c /\ (forall y, g y = c * spec_sum d n N (combine data ws) y)
   /\ (within r x i -> f x = c * (spec_sum d n N (combine data ws) x + sumf (fun v => spec_sum d n N (mirrored_data i v (combine data ws)) x) (boundaries (Some b))))
   /\ (~ within r x i -> f x = 0).
Proof.
  intros HB HO Hf Hg. assert (Hn : (1 <= n)%nat) by (destruct HO as (_ & H & _); lia).
  destruct (as_sum _ _ _ _ _ _ _ _ Hn HB Hg) as (N & _ & HN & _ & _ & _ & _).
  destruct (as_textbook _ _ _ _ _ _ _ _ _ Hn HB HN Hg) as (Z & HZ & HI & Hw & Hm & Eg). pose proof HO as (HL & Hi & Eb & Ho).
  destruct (top_reflected n data ws d M None K N prob r Hn HB HN HL) as (Z' & f' & _ & HI' & Hf' & Hv). rewrite Hf in Hf'. injection Hf' as <-.
  rewrite (tintN_unique n _ (fun _ => 0) _ _ (HI' _) (HI _)) in Hv. exists N, (mass prob ws / lsum ws / Z). split; [exact HN|].
  split; [apply Rdiv_lt_0_compat; [apply Rdiv_lt_0_compat; assumption|exact HZ]|]. split; [exact Eg|].
  destruct (Hv x) as (s0 & s & E & H0 & H0' & Hs). rewrite E.
  assert (HZs : forall j, (j < n)%nat -> j <> i -> s j = 0).
  { intros j Hj Hne. destruct (Hs j Hj) as [A B]. destruct (Classical_Prop.classic (within_from r x j)) as [C|C]; [|exact (B C)].
    rewrite (A C), (Ho j Hne). reflexivity. }
  rewrite (rsum_only n s i Hi HZs). destruct (Hs i Hi) as [A B]. split; intros H.
  - rewrite (H0 (only_within _ _ _ _ _ HO H 0%nat)), (A (only_within _ _ _ _ _ HO H i)), Eb. unfold Rdiv. ring.
  - rewrite H0', B; [unfold Rdiv; ring| |]; intros C; apply H; apply C; lia.
Qed.
Lemma folded n data ws d M K (prob : bool) (r : reflspec) i b f g : built_kde n data ws d M None K -> only n r i b -> apart n M i ->
  kde_density K prob n (Some r) PNone = Ok f -> kde_density K prob n None PNone = Ok g ->
  forall x, (within r x i -> f x = g x + sumf (fun v => g (mirrored i v x)) (boundaries (Some b))) /\ (~ within r x i -> f x = 0).
Proof.
  intros HB HO HA Hf Hg x. destruct (built_inv _ _ _ _ _ _ _ HB) as (_ & _ & _ & _ & _ & _ & _ & _ & _ & _ & HM & HpM).
  destruct (images _ _ _ _ _ _ _ _ _ _ _ _ x HB HO Hf Hg) as (N & c & HN & Hc & Eg & E1 & E2). split; [|exact E2]. intros H. rewrite (E1 H), Eg.
  destruct (inverse_sympd n M N HM HpM HN) as [HsN _]. pose proof (apart_inverse n M N i (proj1 (proj2 HO)) HM HpM HN HA) as HAN.
  rewrite Rmult_plus_distr_l. f_equal. unfold sumf. rewrite <- lsum_scal, map_map. f_equal. apply map_ext. intros v. rewrite Eg, sum_flip by assumption. reflexivity.
Qed.

(** * Slopes *)
Lemma axis_at i s : axis i s i = s.
Proof. unfold axis. destruct (Nat.eq_dec i i); [reflexivity|contradiction]. Qed.
Lemma axis_off i s k : k <> i -> axis i s k = 0.
Proof. intros H. unfold axis. destruct (Nat.eq_dec k i); [contradiction|reflexivity]. Qed.
Lemma mirrored_step i v x s t : mirrored i v (step x (axis i s) t) = step (mirrored i v x) (axis i s) (- t).
Proof.
  apply functional_extensionality. intros k. unfold mirrored, step. destruct (Nat.eq_dec k i) as [->|E]; [rewrite axis_at; ring|rewrite axis_off by exact E; ring].
Qed.
Lemma mirrored_fixed i x : mirrored i (x i) x = x.
Proof. apply functional_extensionality. intros k. unfold mirrored. destruct (Nat.eq_dec k i) as [->|E]; [ring|reflexivity]. Qed.
Lemma step_0 x u : step x u 0 = x.
Proof. apply functional_extensionality. intros k. unfold step. ring. Qed.
(** A slope from a derivative of the values for small steps. *)
Lemma slope_of_derive (f : pt -> R) (h : R -> R) x u l del : 0 < del -> is_derive h 0 l -> f x = h 0 -> (forall t, 0 < t < del -> f (step x u t) = h t) -> slope_along f x u l.
Proof.
  intros Hdel Hd E0 E eps Heps. destruct Hd as [_ Hd]. specialize (Hd 0 (fun P H => H) (mkposreal eps Heps)). destruct Hd as [e He].
  exists (Rmin del e). split; [apply Rmin_pos; [exact Hdel|apply cond_pos]|]. intros t [Ht1 Ht2]. pose proof (Rmin_l del e). pose proof (Rmin_r del e).
  rewrite E, E0 by lra. specialize (He t). assert (Hb : ball 0 e t). { unfold ball; cbn; unfold AbsRing_ball, abs, minus, plus, opp; cbn. replace (t + - 0) with t by ring. rewrite Rabs_right; lra. }
  specialize (He Hb). unfold norm, minus, plus, opp, scal in He. cbn in He. unfold abs, mult in He. cbn in He.
  replace (h t - h 0 - l * t) with (h t + - h 0 + - ((t + - 0) * l)) by ring. replace (eps * t) with (eps * Rabs (t + - 0)); [exact He|]. f_equal. replace (t + - 0) with t by ring. apply Rabs_right; lra.
Qed.
Lemma derive_back (h : R -> R) l : is_derive h 0 l -> is_derive (fun t => h (- t)) 0 (- l).
Proof.
  intros H. assert (H' : is_derive h (- 0) l) by (rewrite Ropp_0; exact H).
  pose proof (is_derive_comp h Ropp 0 l (-1) H') as HC. replace (- l) with (scal (-1) l) by (unfold scal; cbn; unfold mult; cbn; ring). apply HC. auto_derive; [trivial|ring].
Qed.
Lemma even_derive (h : R -> R) l : is_derive h 0 l -> is_derive (fun t => h t + h (- t)) 0 0.
Proof. intros H. replace 0 with (plus l (- l)) at 2 by (unfold plus; cbn; ring). apply (is_derive_plus h (fun t => h (- t)) 0 l (- l) H (derive_back h l H)). Qed.

Lemma slope_ex n data ws d M K N (prob : bool) g x u : (1 <= n)%nat -> built_kde n data ws d M None K -> is_inverse n M N -> kde_density K prob n None PNone = Ok g ->
  (forall p, In p data -> smooth d (quad n N (psub x p))) -> exists l, is_derive (fun t => g (step x u t)) 0 l.
Proof. intros Hn HB HN Hg Hx. destruct (slope n data ws d M K N prob g Hn HB HN Hg) as (Z & _ & _ & H). eexists. exact (H x u Hx). Qed.

Lemma within_step r x i lo hi (s t : R) : nth i r None = Some (lo, hi) ->
  (within r (step x (axis i s) t) i <-> (forall v, lo = Some v -> v <= x i + t * s) /\ (forall v, hi = Some v -> x i + t * s <= v)).
Proof.
  intros E. unfold within, step. rewrite axis_at. split.
  - intros H. exact (H lo hi E).
  - intros H lo' hi' E'. pose proof (eq_trans (eq_sym E) E') as Q. injection Q as <- <-. exact H.
Qed.

(** One boundary: level. *)
Lemma level n data ws d M K N (prob : bool) (r : reflspec) i b v s f x : built_kde n data ws d M None K -> is_inverse n M N -> only n r i b -> one_limit b v s -> apart n M i ->
  kde_density K prob n (Some r) PNone = Ok f -> x i = v -> (forall p, In p data -> smooth d (quad n N (psub x p))) -> slope_along f x (axis i s) 0.
Proof.
  intros HB HN HO Hb HA Hf Hx Hsm. assert (Hn : (1 <= n)%nat) by (destruct HO as (_ & H & _); lia).
  destruct (density_refl_exists_none n _ _ _ _ _ prob HB Hn) as [g Hg].
  destruct (slope_ex n data ws d M K N prob g x (axis i s) Hn HB HN Hg Hsm) as [l Hl].
  assert (E : forall t, 0 <= t -> f (step x (axis i s) t) = g (step x (axis i s) t) + g (step x (axis i s) (- t))).
  { intros t Ht. destruct (folded _ _ _ _ _ _ _ _ _ _ _ _ HB HO HA Hf Hg (step x (axis i s) t)) as [H _]. rewrite H.
    - f_equal. assert (EB : boundaries (Some b) = [v]) by (destruct Hb as [[-> _]|[-> _]]; reflexivity). rewrite EB. unfold sumf. cbn [map lsum].
      rewrite mirrored_step, <- Hx, mirrored_fixed. ring.
    - destruct Hb as [[-> ->]|[-> ->]]; (eapply within_step; [exact (proj1 (proj2 (proj2 HO)))|]); rewrite Hx; split; intros w E; try discriminate; injection E as <-; lra. }
  apply (slope_of_derive f (fun t => g (step x (axis i s) t) + g (step x (axis i s) (- t))) x (axis i s) 0 1); [lra|exact (even_derive _ l Hl)| |].
  - rewrite <- E by lra. rewrite step_0. reflexivity.
  - intros t Ht. apply E. lra.
Qed.
(** Two boundaries: the slope of the image in the other one. *)
Lemma other n data ws d M K N (prob : bool) (r : reflspec) i b v w s f g x l : built_kde n data ws d M None K -> is_inverse n M N -> only n r i b -> two_limits b v w s -> apart n M i ->
  kde_density K prob n (Some r) PNone = Ok f -> kde_density K prob n None PNone = Ok g -> x i = v -> (forall p, In p data -> smooth d (quad n N (psub x p))) ->
  is_derive (fun t => g (step (mirrored i w x) (axis i s) t)) 0 l -> slope_along f x (axis i s) (- l).
Proof.
  intros HB HN HO Hb HA Hf Hg Hx Hsm Hl'. assert (Hn : (1 <= n)%nat) by (destruct HO as (_ & H & _); lia).
  destruct (slope_ex n data ws d M K N prob g x (axis i s) Hn HB HN Hg Hsm) as [l' Hl].
  set (h := fun t => g (step x (axis i s) t)) in *. set (k := fun t => g (step (mirrored i w x) (axis i s) t)) in *.
  assert (Hvw : 0 < Rabs (w - v)) by (apply Rabs_pos_lt; destruct Hb as [(_ & H & _)|(_ & H & _)]; lra).
  assert (E : forall t, 0 <= t < Rabs (w - v) -> f (step x (axis i s) t) = h t + h (- t) + k (- t)).
  { intros t Ht. destruct (folded _ _ _ _ _ _ _ _ _ _ _ _ HB HO HA Hf Hg (step x (axis i s) t)) as [H _]. rewrite H.
    - destruct Hb as [(-> & _ & _)|(-> & _ & _)]; cbn [boundaries app]; unfold sumf; cbn [map lsum]; rewrite !mirrored_step, <- Hx, mirrored_fixed; unfold h, k; ring.
    - destruct Hb as [(-> & Hlt & ->)|(-> & Hlt & ->)]; (eapply within_step; [exact (proj1 (proj2 (proj2 HO)))|]); rewrite Hx; [rewrite Rabs_right in Ht by lra|rewrite Rabs_left in Ht by lra];
        split; intros q E; injection E as <-; lra. }
  apply (slope_of_derive f (fun t => h t + h (- t) + k (- t)) x (axis i s) (- l) (Rabs (w - v))); [exact Hvw| | |].
  - replace (- l) with (plus 0 (- l)) by (unfold plus; cbn; ring). apply (is_derive_plus (fun t => h t + h (- t)) (fun t => k (- t)) 0 0 (- l) (even_derive h l' Hl) (derive_back k l Hl')).
  - rewrite <- E by lra. rewrite step_0. reflexivity.
  - intros t Ht. apply E. lra.
Qed.
(** ... and level if that is out of reach of the kernels. *)
Lemma level_far n data ws d M K N (prob : bool) (r : reflspec) i b v w s f x : built_kde n data ws d M None K -> is_inverse n M N -> only n r i b -> two_limits b v w s -> apart n M i ->
  kde_density K prob n (Some r) PNone = Ok f -> x i = v -> (forall p, In p data -> smooth d (quad n N (psub x p))) ->
  finite d = true -> (forall p, In p data -> 1 < quad n N (psub (mirrored i w x) p)) -> slope_along f x (axis i s) 0.
Proof.
  intros HB HN HO Hb HA Hf Hx Hsm Hfin Hfar. assert (Hn : (1 <= n)%nat) by (destruct HO as (_ & H & _); lia).
  destruct (density_refl_exists_none n _ _ _ _ _ prob HB Hn) as [g Hg].
  destruct (slope n data ws d M K N prob g Hn HB HN Hg) as (Z & _ & _ & H).
  replace 0 with (- 0) by ring. eapply other; try eassumption.
  assert (Hsm' : forall p, In p data -> smooth d (quad n N (psub (mirrored i w x) p))). { intros p Hp. specialize (Hfar p Hp). destruct d; cbn [smooth]; try exact I; lra. }
  specialize (H (mirrored i w x) (axis i s) Hsm'). set (S := sumf _ _) in H. assert (E : S = 0).
  { unfold S. apply sumf_zero. intros [p wt] Hin. cbn [fst snd]. apply in_combine_l in Hin. specialize (Hfar p Hin).
    assert (Ef : falling d (quad n N (psub (mirrored i w x) p)) = 0). { destruct d; cbn [falling]; try discriminate; try reflexivity; match goal with |- (if ?c then _ else _) = _ => destruct c; [lra|reflexivity] end. }
    rewrite Ef. ring. }
  rewrite E in H. replace 0 with (-2 * (mass prob ws / lsum ws / Z) * 0) at 2 by ring. exact H.
Qed.

Lemma pos_sum {A} (f : A -> R) l : (forall x, In x l -> 0 <= f x) -> (exists x, In x l /\ 0 < f x) -> 0 < sumf f l.
Proof.
  intros H (x & Hi & Hx). induction l as [|a l IH]; [contradiction|]. unfold sumf in *. cbn [map lsum].
  assert (0 <= lsum (map f l)) by (apply sumf_nonneg; intros y Hy; apply H; right; exact Hy). pose proof (H a (or_introl eq_refl)). destruct Hi as [->|Hi]; [lra|].
  specialize (IH (fun y Hy => H y (or_intror Hy)) Hi). lra.
Qed.
Lemma pair_of (data : list pt) : forall (ws : list R) w, length data = length ws -> In w ws -> exists p, In (p, w) (combine data ws).
Proof.
  induction data as [|p data IH]; intros [|w0 ws] w HL Hi; try discriminate; [contradiction|]. cbn [combine]. destruct Hi as [->|Hi]; [exists p; left; reflexivity|].
  injection HL as HL. destruct (IH ws w HL Hi) as (q & Hq). exists q. right. exact Hq.
Qed.
(** Both boundaries and a Gaussian kernel: the density rises from the boundaries. *)
Lemma rising data ws M K (prob : bool) lo hi f v w s : built_kde 1 data ws Gaussian M None K -> two_limits (Some lo, Some hi) v w s -> (forall p, In p data -> lo <= p O <= hi) ->
  kde_density K prob 1 (Some [Some (Some lo, Some hi)]) PNone = Ok f -> exists l, 0 < l /\ slope_along f (pt1 v) (axis 0 s) l.
Proof.
  intros HB Hb Hd Hf. destruct (built_inv _ _ _ _ _ _ _ HB) as (_ & _ & Hne & _ & _ & Hlen & Hnn & Hw & _ & _ & HM & HpM).
  destruct (density_refl_exists_none 1 _ _ _ _ _ prob HB (le_n 1)) as [g Hg].
  pose proof (posdef_diag_pos 1 M O HpM ltac:(lia)) as HM0. pose proof (inverse_1 M HM0) as HN. set (N := fun _ _ : nat => / M O O) in *.
  destruct (slope 1 data ws Gaussian M K N prob g (le_n 1) HB HN Hg) as (Z & HZ & _ & H).
  set (x := pt1 v). specialize (H (mirrored 0 w x) (axis 0 s) ltac:(intros; exact I)).
  match type of H with is_derive _ _ ?a => set (l := a) in H end. exists (- l). split.
  - assert (Hc : 0 < mass prob ws / lsum ws / Z). { apply Rdiv_lt_0_compat; [apply Rdiv_lt_0_compat; [destruct prob; cbn; lra|exact Hw]|exact HZ]. }
    unfold l. set (c := mass prob ws / lsum ws / Z) in *. set (S := sumf _ _). assert (HS : 0 < S).
    { unfold S. destruct (lsum_pos_ex ws Hnn Hw) as (w0 & Hin0 & Hw0). apply pos_sum.
      - intros [p wt] Hin. cbn [fst snd]. pose proof (Hd p (in_combine_l _ _ _ _ Hin)) as Hp. pose proof (Hnn wt (in_combine_r _ _ _ _ Hin)) as Hwt.
        apply Rmult_le_pos; [apply Rmult_le_pos; [exact Hwt|apply falling_nonneg]|]. unfold inner, psub, mirrored, x, pt1, N. cbn. unfold axis. cbn.
        pose proof (Rinv_0_lt_compat _ HM0) as Hinv. destruct Hb as [(E & Hlt & ->)|(E & Hlt & ->)]; injection E as -> ->.
        + assert (0 <= (2 * w - v - p O) * / M O O) by (apply Rmult_le_pos; lra). lra.
        + assert (0 <= (p O - (2 * w - v)) * / M O O) by (apply Rmult_le_pos; lra). lra.
      - destruct (pair_of data ws w0 (eq_sym Hlen) Hin0) as (p & Hp). exists (p, w0). split; [exact Hp|]. cbn [fst snd]. pose proof (Hd p (in_combine_l _ _ _ _ Hp)) as Hpd.
        apply Rmult_lt_0_compat; [apply Rmult_lt_0_compat; [exact Hw0|cbn [falling]; pose proof (exp_pos (- (quad 1 N (psub (mirrored 0 w x) p) / 2))); lra]|]. unfold inner, psub, mirrored, x, pt1, N. cbn. unfold axis. cbn.
        pose proof (Rinv_0_lt_compat _ HM0) as Hinv. destruct Hb as [(E & Hlt & ->)|(E & Hlt & ->)]; injection E as -> ->.
        + assert (0 < (2 * w - v - p O) * / M O O) by (apply Rmult_lt_0_compat; lra). lra.
        + assert (0 < (p O - (2 * w - v)) * / M O O) by (apply Rmult_lt_0_compat; lra). lra. }
    assert (0 < c * S) by (apply Rmult_lt_0_compat; assumption). lra.
  - eapply (other 1 data ws Gaussian M K N prob [Some (Some lo, Some hi)] 0 (Some lo, Some hi) v w s f g x l); try eassumption; try reflexivity.
    + split; [reflexivity|]. split; [lia|]. split; [reflexivity|]. intros [|[|j]] Hj; [contradiction Hj; reflexivity|reflexivity|reflexivity].
    + intros j Hj Hne'. lia.
Qed.

(** Correlations: not level. *)
Lemma correlated_refuted : exists M K f x l, built_kde 2 [pt1 0] [1] Gaussian M None K /\ only 2 [Some (Some 0, None); None] 0 (Some 0, None) /\ one_limit (Some 0, None) 0 1
  /\ kde_density K true 2 (Some [Some (Some 0, None); None]) PNone = Ok f /\ x O = 0 /\ l <> 0 /\ slope_along f x (axis 0 1) l.
Proof.
  destruct tilted_built as [K HB]. set (r := [Some (Some 0, None); None] : reflspec).
  assert (HO : only 2 r 0 (Some 0, None)). { split; [reflexivity|]. split; [lia|]. split; [reflexivity|]. intros [|[|[|j]]] Hj; try reflexivity. contradiction Hj; reflexivity. }
  destruct (density_refl_exists 2 _ _ _ _ _ _ true r HB eq_refl) as [f Hf].
  destruct (density_refl_exists_none 2 _ _ _ _ _ true HB ltac:(lia)) as [g Hg].
  set (x := (fun i => match i with O => 0 | _ => 1 end) : pt).
  destruct (slope 2 _ _ _ _ _ _ true g ltac:(lia) HB tilted_inverse Hg) as (Z & HZ & HI & H).
  specialize (H x (axis 0 1) ltac:(intros; exact I)). match type of H with is_derive _ _ ?a => set (l := a) in H end.
  exists tilted, K, f, x, (2 * l). split; [exact HB|]. split; [exact HO|]. split; [left; split; reflexivity|]. split; [exact Hf|]. split; [reflexivity|]. split.
  - unfold l, sumf. cbn [combine map lsum fst snd mass]. set (q := quad 2 tilted_inv (psub x (pt1 0))). pose proof (exp_pos (- (q / 2))) as He. cbn [falling].
    replace (inner 2 tilted_inv (psub x (pt1 0)) (axis 0 1)) with (-1) by (unfold inner, psub, x, pt1, tilted_inv, axis; cbn; ring).
    assert (Hc : 0 < 1 / (1 + 0) / Z) by (apply Rdiv_lt_0_compat; lra). set (c := 1 / (1 + 0) / Z) in *. set (e := exp _) in *. assert (0 < c * e) by (apply Rmult_lt_0_compat; assumption). lra.
  - apply (slope_of_derive f (fun t => 2 * g (step x (axis 0 1) t)) x (axis 0 1) (2 * l) 1); [lra|apply (is_derive_scal (fun t => g (step x (axis 0 1) t))); exact H| |].
    + rewrite step_0. destruct (images _ _ _ _ _ _ _ _ _ _ _ _ x HB HO Hf Hg) as (N & c & _ & _ & Eg & E1 & _). rewrite E1; [|intros lo hi E; injection E as <- <-; split; intros v Ev; [injection Ev as <-; unfold step, axis, x; cbn; lra|discriminate]].
      rewrite Eg. cbn [boundaries app]. unfold sumf at 1. cbn [map lsum]. replace (mirrored_data 0 0 (combine [pt1 0] [1])) with (combine [pt1 0] [1]); [ring|].
      unfold mirrored_data. cbn [combine map fst snd]. f_equal. f_equal. apply functional_extensionality. intros k. unfold mirrored, pt1. destruct (Nat.eq_dec k 0); ring.
    + intros t Ht. destruct (images _ _ _ _ _ _ _ _ _ _ _ _ (step x (axis 0 1) t) HB HO Hf Hg) as (N & c & _ & _ & Eg & E1 & _).
      rewrite E1; [|intros lo hi E; injection E as <- <-; split; intros v Ev; [injection Ev as <-; unfold step, axis, x; cbn; lra|discriminate]].
      rewrite Eg. cbn [boundaries app]. unfold sumf at 1. cbn [map lsum]. replace (mirrored_data 0 0 (combine [pt1 0] [1])) with (combine [pt1 0] [1]); [ring|].
      unfold mirrored_data. cbn [combine map fst snd]. f_equal. f_equal. apply functional_extensionality. intros k. unfold mirrored, pt1. destruct (Nat.eq_dec k 0); ring.
Qed.
Lemma slope_unique f x u s t : slope_along f x u s -> slope_along f x u t -> s = t.
Proof.
  intros Hs Ht. destruct (Req_dec s t) as [E|E]; [exact E|]. exfalso. set (e := Rabs (s - t) / 4). assert (He : 0 < e) by (unfold e; pose proof (Rabs_pos_lt (s - t) ltac:(lra)); lra).
  destruct (Hs e He) as (a & Ha & HA). destruct (Ht e He) as (b & Hb & HB). set (h := Rmin a b / 2). assert (Hm : 0 < Rmin a b) by (apply Rmin_pos; assumption).
  pose proof (Rmin_l a b). pose proof (Rmin_r a b). specialize (HA h ltac:(unfold h; lra)). specialize (HB h ltac:(unfold h; lra)). set (y := f (step x u h) - f x) in *.
  assert (HC : Rabs (s - t) * h <= 2 * e * h).
  { rewrite <- (Rabs_right h) at 1 by (unfold h; lra). rewrite <- Rabs_mult. replace ((s - t) * h) with ((y - t * h) - (y - s * h)) by ring. pose proof (Rabs_triang (y - t * h) (- (y - s * h))) as H1. rewrite Rabs_Ropp in H1. unfold Rminus in *. lra. }
  apply Rmult_le_reg_r in HC; [|unfold h; lra]. unfold e in HC. pose proof (Rabs_pos_lt (s - t) ltac:(lra)). lra.
Qed.
Lemma edge_example : exists K f g h, built_kde 2 [pt1 (1 / 2)] [1] Parabola ident None K /\ is_inverse 2 ident ident /\ apart 2 ident 0
  /\ only 2 [Some (Some 0, None); None] 0 (Some 0, None) /\ only 2 [Some (Some 0, Some 3); None] 0 (Some 0, Some 3) /\ two_limits (Some 0, Some 3) 0 3 1
  /\ kde_density K true 2 (Some [Some (Some 0, None); None]) PNone = Ok f /\ kde_density K true 2 (Some [Some (Some 0, Some 3); None]) PNone = Ok g /\ kde_density K true 2 None PNone = Ok h
  /\ (forall p, In p [pt1 (1 / 2)] -> smooth Parabola (quad 2 ident (psub (pt1 0) p))) /\ (forall p, In p [pt1 (1 / 2)] -> 1 < quad 2 ident (psub (mirrored 0 3 (pt1 0)) p))
  /\ slope_along f (pt1 0) (axis 0 1) 0 /\ slope_along g (pt1 0) (axis 0 1) 0 /\ 0 < f (pt1 0).
Proof.
  destruct (unit_kde 2 [pt1 (1 / 2)] [1] Parabola None) as (K & _ & HB & _); [discriminate|reflexivity|intros v [<-|[]]; lra|exists 1; split; [left; reflexivity|lra]|].
  destruct (density_refl_exists 2 _ _ _ _ _ _ true [Some (Some 0, None); None] HB eq_refl) as [f Hf].
  destruct (density_refl_exists 2 _ _ _ _ _ _ true [Some (Some 0, Some 3); None] HB eq_refl) as [g Hg].
  destruct (density_refl_exists_none 2 _ _ _ _ _ true HB ltac:(lia)) as [h Hh].
  assert (HA : apart 2 ident 0) by (intros [|[|j]] Hj Hne; try lia; reflexivity).
  assert (HO : forall b, only 2 [Some b; None] 0 b). { intros b. split; [reflexivity|]. split; [lia|]. split; [reflexivity|]. intros [|[|[|j]]] Hj; try reflexivity. contradiction Hj; reflexivity. }
  assert (Q1 : quad 2 ident (psub (pt1 0) (pt1 (1 / 2))) = 1 / 2) by (unfold quad, psub, pt1, ident; cbn; field).
  assert (S1 : forall p, In p [pt1 (1 / 2)] -> smooth Parabola (quad 2 ident (psub (pt1 0) p))) by (intros p [<-|[]]; cbn [smooth]; rewrite Q1; lra).
  assert (S2 : forall p, In p [pt1 (1 / 2)] -> 1 < quad 2 ident (psub (mirrored 0 3 (pt1 0)) p)) by (intros p [<-|[]]; unfold quad, psub, pt1, ident, mirrored; cbn; lra).
  assert (HT : two_limits (Some 0, Some 3) 0 3 1) by (left; split; [reflexivity|split; [lra|reflexivity]]).
  exists K, f, g, h. split; [exact HB|]. split; [apply ident_inverse|]. split; [exact HA|]. split; [apply HO|]. split; [apply HO|]. split; [exact HT|].
  split; [exact Hf|]. split; [exact Hg|]. split; [exact Hh|]. split; [exact S1|]. split; [exact S2|]. split; [|split].
  - eapply level; try eassumption; [apply ident_inverse|apply HO|left; split; reflexivity|reflexivity].
  - eapply level_far; try eassumption; [apply ident_inverse|apply HO|reflexivity|reflexivity].
  - destruct (images _ _ _ _ _ _ _ _ _ _ _ _ (pt1 0) HB (HO _) Hf Hh) as (N & c & HN & Hc & _ & E1 & _). rewrite E1; [|intros lo hi E; injection E as <- <-; split; intros v Ev; [injection Ev as <-; unfold pt1; lra|discriminate]].
    pose proof (inverse_unique 2 ident N ident HN (ident_inverse 2)) as Hag. cbn [boundaries app]. unfold sumf. cbn [map lsum]. rewrite !(spec_sum_ext Parabola 2 N ident) by exact Hag.
    apply Rmult_lt_0_compat; [exact Hc|]. unfold spec_sum, mirrored_data, sumf. cbn [combine map lsum fst snd]. rewrite Q1.
    replace (quad 2 ident (psub (pt1 0) (mirrored 0 0 (pt1 (1 / 2))))) with (1 / 2) by (unfold quad, psub, pt1, ident, mirrored; cbn; field). unfold spec_prof. destruct (Rle_dec (1 / 2) 1); lra.
Qed.
Lemma rising_example : exists K f l, built_kde 1 [pt1 (1 / 2)] [1] Gaussian ident None K /\ kde_density K true 1 (Some [Some (Some 0, Some 1)]) PNone = Ok f /\ 0 < l /\ slope_along f (pt1 0) (axis 0 1) l.
Proof.
  destruct (unit_kde 1 [pt1 (1 / 2)] [1] Gaussian None) as (K & _ & HB & _); [discriminate|reflexivity|intros v [<-|[]]; lra|exists 1; split; [left; reflexivity|lra]|].
  destruct (density_refl_exists 1 _ _ _ _ _ _ true [Some (Some 0, Some 1)] HB eq_refl) as [f Hf]. exists K, f.
  destruct (rising _ _ _ _ _ _ _ f 0 1 1 HB ltac:(left; split; [reflexivity|split; [lra|reflexivity]]) ltac:(intros p [<-|[]]; unfold pt1; lra) Hf) as (l & H1 & H2). exists l. auto.
Qed.

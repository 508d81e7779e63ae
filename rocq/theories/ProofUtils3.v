(** Proofs about subdivide, histogram, spacing. *)
From Coq Require Import Permutation ZArith.
From Verif Require Import Base ModelLinAlg ModelKernels ModelKDE ModelInterp ModelResample ModelUtils SpecUtils ProofInterp ProofUtils ProofUtils2.
Open Scope R_scope.
Notation length := List.length.

Lemma nth_firstn_lt {A} (d : A) k l i : (i < k)%nat -> nth i (firstn k l) d = nth i l d.
Proof.
  revert l i. induction k as [|k IH]; intros l i H; [lia|]. destruct l as [|a l]; [reflexivity|]. destruct i as [|i]; [reflexivity|].
  cbn. apply IH. lia.
Qed.

(* ---------------------------------------------------------- subdivide *)
Lemma sub_steps_length num x y : length (sub_steps num x y) = S num.
Proof. unfold sub_steps. rewrite map_length, seq_length. reflexivity. Qed.
Lemma sub_steps_nth num x y k : (k <= num)%nat -> nth k (sub_steps num x y) 0 = x + (y - x) * (INR k / INR (S num)).
Proof.
  intros H. unfold sub_steps. set (g := fun k => x + (y - x) * (INR k / INR (S num))).
  rewrite (nth_indep _ 0 (g O)) by (rewrite map_length, seq_length; lia). rewrite map_nth, seq_nth by lia. reflexivity.
Qed.
Lemma sub_all_length num l : length (sub_all num l) = (length l * S num)%nat.
Proof. induction l as [|x l IH]; [reflexivity|]. cbn [sub_all]. rewrite app_length, sub_steps_length, IH. cbn. lia. Qed.
Lemma sub_all_nth num l i k : (i < length l)%nat -> (k <= num)%nat ->
  nth (i * S num + k) (sub_all num l) 0 = nth i l 0 + (nth (S i) l 0 - nth i l 0) * (INR k / INR (S num)).
Proof.
  revert i. induction l as [|x l IH]; intros i Hi Hk; [cbn in Hi; lia|]. cbn [sub_all]. destruct i as [|i].
  - rewrite app_nth1 by (rewrite sub_steps_length; lia). replace (0 * S num + k)%nat with k by lia.
    rewrite sub_steps_nth by lia. cbn [nth]. destruct l; reflexivity.
  - rewrite app_nth2 by (rewrite sub_steps_length; cbn; lia). rewrite sub_steps_length.
    replace (S i * S num + k - S num)%nat with (i * S num + k)%nat by (cbn; lia).
    rewrite IH by (cbn in Hi; lia). reflexivity.
Qed.

Theorem subdivide_length l num : (1 <= num)%nat -> l <> [] -> length (subdivide l num) = ((length l - 1) * S num + 1)%nat.
Proof.
  intros Hn Hl. unfold subdivide. destruct (Nat.eqb_spec num 0); [lia|]. cbv zeta. rewrite firstn_length, sub_all_length.
  destruct l as [|x l]; [contradiction|]. cbn [length]. nia.
Qed.
Theorem subdivide_points l num i k : (1 <= num)%nat -> (S i < length l)%nat -> (k <= S num)%nat ->
  nth (i * S num + k) (subdivide l num) 0 = nth i l 0 + (nth (S i) l 0 - nth i l 0) * (INR k / INR (S num)).
Proof.
  intros Hn Hi Hk. unfold subdivide. destruct (Nat.eqb_spec num 0); [lia|]. cbv zeta. rewrite sub_all_length.
  rewrite nth_firstn_lt by nia. destruct (Nat.eq_dec k (S num)) as [->|Hne].
  - replace (i * S num + S num)%nat with (S i * S num + 0)%nat by lia. rewrite sub_all_nth by lia.
    cbn [INR]. assert (INR (S num) <> 0) by (apply not_0_INR; lia). field. assumption.
  - rewrite sub_all_nth by lia. reflexivity.
Qed.
Theorem subdivide_keeps l num i : (1 <= num)%nat -> (i < length l)%nat -> nth (i * S num) (subdivide l num) 0 = nth i l 0.
Proof.
  intros Hn Hi. unfold subdivide. destruct (Nat.eqb_spec num 0); [lia|]. cbv zeta. rewrite sub_all_length.
  rewrite nth_firstn_lt by nia. rewrite <- (Nat.add_0_r (i * S num)), sub_all_nth by lia. cbn [INR]. unfold Rdiv. ring.
Qed.
Lemma incr_list_step l : (forall i, (S i < length l)%nat -> nth i l 0 < nth (S i) l 0) -> incr_list l.
Proof.
  intros H i j Hij Hj. induction j as [|j IH]; [lia|]. destruct (Nat.eq_dec i j) as [->|Hne]; [apply H; exact Hj|].
  eapply Rlt_trans; [apply IH; lia|apply H; exact Hj].
Qed.
Theorem subdivide_increasing l num : incr_list l -> incr_list (subdivide l num).
Proof.
  intros Hl. destruct (Nat.eq_dec num 0) as [->|Hn]; [intros i j _ Hj; cbn in Hj; lia|].
  destruct l as [|x l]; [intros i j _ Hj; unfold subdivide in Hj; destruct (Nat.eqb num 0); cbn in Hj; lia|].
  set (L := x :: l) in *. apply incr_list_step. intros j Hj. rewrite subdivide_length in Hj by (try lia; discriminate).
  pose proof (Nat.div_mod j (S num) ltac:(lia)) as E. pose proof (Nat.mod_upper_bound j (S num) ltac:(lia)) as B.
  set (i := (j / S num)%nat) in *. set (k := (j mod S num)%nat) in *.
  assert (Hi : (S i < length L)%nat) by nia.
  replace j with (i * S num + k)%nat by lia. replace (S (i * S num + k)) with (i * S num + S k)%nat by lia.
  rewrite !subdivide_points by lia. rewrite S_INR with (n := k). pose proof (Hl i (S i) ltac:(lia) Hi).
  assert (P : 0 < INR (S num)) by (apply lt_0_INR; lia).
  assert (0 < (nth (S i) L 0 - nth i L 0) * / INR (S num)) by (apply Rmult_lt_0_compat; [lra|apply Rinv_0_lt_compat, P]).
  unfold Rdiv. nra.
Qed.
Theorem subdivide_zero l : subdivide l 0 = [].
Proof. reflexivity. Qed.

(* ---------------------------------------------------------- linspace, spacing *)
Lemma linspace_length a b n : length (linspace a b n) = n.
Proof. unfold linspace. rewrite map_length, seq_length. reflexivity. Qed.
Lemma linspace_nth a b n i : (2 <= n)%nat -> (i < n)%nat -> nth i (linspace a b n) 0 = a + INR i * (b - a) / INR (n - 1).
Proof.
  intros Hn Hi. unfold linspace. match goal with |- context [map ?f (seq 0 n)] => set (g := f) end.
  rewrite (nth_indep _ 0 (g O)) by (rewrite map_length, seq_length; lia). rewrite map_nth, seq_nth by lia. cbn [plus]. unfold g.
  destruct (Nat.eqb_spec (S i) n) as [E|E]; cbn [andb].
  - destruct (Nat.eqb_spec i 0); [lia|]. cbn. subst n. replace (S i - 1)%nat with i by lia. assert (INR i <> 0) by (apply not_0_INR; lia). field. assumption.
  - unfold Rdiv. ring.
Qed.
Lemma linspace_uniform a b n : (2 <= n)%nat -> uniform (linspace a b n) a b.
Proof.
  intros Hn. unfold uniform. rewrite linspace_length. split; [|split].
  - rewrite linspace_nth by lia. cbn [INR]. unfold Rdiv. ring.
  - rewrite linspace_nth by lia. assert (INR (n - 1) <> 0) by (apply not_0_INR; lia). field. assumption.
  - intros i Hi. apply linspace_nth; lia.
Qed.
Lemma uniform_incr l a b : uniform l a b -> (2 <= length l)%nat -> a < b -> incr_list l.
Proof.
  intros (_ & _ & H) Hl Hab i j Hij Hj. rewrite !H by lia. apply Rplus_lt_compat_l.
  assert (0 < INR (length l - 1)) by (apply lt_0_INR; lia). apply Rmult_lt_compat_r; [apply Rinv_0_lt_compat; assumption|].
  apply Rmult_lt_compat_r; [lra|]. apply lt_INR. exact Hij.
Qed.

Theorem spacing_linear data num lo hi dex : (2 <= num)%nat -> min_of data lo -> max_of data hi ->
  exists l, spacing data false None StNone StNone None ScLin (Some num) dex = Some (Ok l) /\ length l = num /\ uniform l lo hi.
Proof.
  intros Hn Hlo Hhi. destruct data as [|x l]; [destruct Hlo as [[] _]|].
  unfold spacing. cbn [minmax stretch_pair bind clip_limit clip_prev fst snd].
  rewrite (min_of_unique _ _ _ (vmin_spec x l) Hlo), (max_of_unique _ _ _ (vmax_spec x l) Hhi).
  eexists. split; [reflexivity|]. split; [apply linspace_length|apply linspace_uniform, Hn].
Qed.

Lemma ln10_pos : 0 < ln 10.
Proof. rewrite <- ln_1. apply ln_increasing; lra. Qed.
Lemma pow10_log10 x : 0 < x -> pow10 (log10 x) = x.
Proof.
  intros H. unfold pow10, log10, Rpower. replace (ln x / ln 10 * ln 10) with (ln x) by (field; pose proof ln10_pos; lra). apply exp_ln, H.
Qed.
Lemma log10_pow10 x : log10 (pow10 x) = x.
Proof. unfold pow10, log10, Rpower. rewrite ln_exp. field. pose proof ln10_pos. lra. Qed.
Lemma log10_lt x y : 0 < x -> x < y -> log10 x < log10 y.
Proof. intros Hx H. unfold log10. apply Rmult_lt_compat_r; [apply Rinv_0_lt_compat, ln10_pos|apply ln_increasing; assumption]. Qed.

Lemma pow10_pos x : 0 < pow10 x.
Proof. apply exp_pos. Qed.

(** Logarithmic spacing: the logarithms are equally spaced, the ends are the extrema of the selected data. *)
Theorem spacing_log data positive num lo hi dex : (2 <= num)%nat -> (forall x, In x data -> 0 < x) -> min_of data lo -> max_of data hi ->
  exists l, spacing data positive None StNone StNone None ScLog (Some num) dex = Some (Ok l) /\ length l = num
    /\ nth 0 l 0 = lo /\ nth (num - 1) l 0 = hi /\ uniform (map log10 l) (log10 lo) (log10 hi).
Proof.
  intros Hn Hpos Hlo Hhi. destruct data as [|x l]; [destruct Hlo as [[] _]|].
  unfold spacing. cbn [minmax stretch_pair bind clip_limit clip_prev fst snd].
  assert (EF : forall m, (forall z, In z m -> 0 < z) -> filter (fun z => Rltb 0 z) m = m).
  { induction m as [|y m IH]; intros H; [reflexivity|]. cbn. rewrite (proj2 (Rltb_true 0 y)) by (apply H; left; reflexivity).
    rewrite IH by (intros; apply H; right; assumption). reflexivity. }
  replace (if positive then filter (fun z => Rltb 0 z) (x :: l) else x :: l) with (x :: l) by (destruct positive; [symmetry; apply EF; exact Hpos|reflexivity]). cbn [bind].
  rewrite (min_of_unique _ _ _ (vmin_spec x l) Hlo), (max_of_unique _ _ _ (vmax_spec x l) Hhi).
  assert (0 < lo) by (apply Hpos, (proj1 Hlo)). assert (0 < hi) by (apply Hpos, (proj1 Hhi)).
  rewrite (proj2 (Rltb_true 0 lo)), (proj2 (Rltb_true 0 hi)) by assumption. cbn [andb].
  set (L := linspace (log10 lo) (log10 hi) num).
  assert (LL : length L = num) by apply linspace_length.
  assert (EN : forall i, (i < num)%nat -> nth i (map pow10 L) 0 = pow10 (nth i L 0)).
  { intros i Hi. rewrite (nth_indep _ 0 (pow10 0)) by (rewrite map_length; lia). apply map_nth. }
  destruct (linspace_uniform (log10 lo) (log10 hi) num Hn) as (U1 & U2 & U3). fold L in U1, U2, U3. rewrite LL in U2.
  eexists. split; [reflexivity|]. split; [rewrite map_length; exact LL|]. split; [|split].
  - rewrite EN, U1 by lia. apply pow10_log10. assumption.
  - rewrite EN, U2 by lia. apply pow10_log10. assumption.
  - rewrite map_map, (map_ext _ (fun z => z)) by (intros; apply log10_pow10). rewrite map_id. apply linspace_uniform, Hn.
Qed.

(** Default number of logarithmic points: at least [dex] intervals per decade. *)
Lemma ceil_nat_ge x : 0 <= x -> x <= INR (ceil_nat x).
Proof.
  intros Hx. unfold ceil_nat. destruct (archimed (- x)) as [H1 H2].
  assert (HZ : x <= IZR (- (up (- x) - 1))) by (rewrite opp_IZR, minus_IZR; lra).
  rewrite INR_IZR_INZ, Z2Nat.id; [exact HZ|]. apply le_IZR. lra.
Qed.
Lemma ceil_nat_lt x : 0 <= x -> INR (ceil_nat x) < x + 1.
Proof.
  intros Hx. unfold ceil_nat. destruct (archimed (- x)) as [H1 H2].
  assert (HZ : x <= IZR (- (up (- x) - 1))) by (rewrite opp_IZR, minus_IZR; lra).
  rewrite INR_IZR_INZ, Z2Nat.id; [|apply le_IZR; lra]. rewrite opp_IZR, minus_IZR. lra.
Qed.
Theorem spacing_log_default data positive lo hi dex : 0 <= dex -> (forall x, In x data -> 0 < x) -> min_of data lo -> max_of data hi ->
  exists l, spacing data positive None StNone StNone None ScLog None dex = Some (Ok l)
    /\ (log10 hi - log10 lo) * dex <= INR (length l - 1) < (log10 hi - log10 lo) * dex + 1.
Proof.
  intros Hd Hpos Hlo Hhi. destruct data as [|x l]; [destruct Hlo as [[] _]|].
  unfold spacing. cbn [minmax stretch_pair bind clip_limit clip_prev fst snd].
  assert (EF : forall m, (forall z, In z m -> 0 < z) -> filter (fun z => Rltb 0 z) m = m).
  { induction m as [|y m IH]; intros H; [reflexivity|]. cbn. rewrite (proj2 (Rltb_true 0 y)) by (apply H; left; reflexivity).
    rewrite IH by (intros; apply H; right; assumption). reflexivity. }
  replace (if positive then filter (fun z => Rltb 0 z) (x :: l) else x :: l) with (x :: l) by (destruct positive; [symmetry; apply EF; exact Hpos|reflexivity]). cbn [bind].
  rewrite (min_of_unique _ _ _ (vmin_spec x l) Hlo), (max_of_unique _ _ _ (vmax_spec x l) Hhi).
  assert (0 < lo) by (apply Hpos, (proj1 Hlo)). assert (0 < hi) by (apply Hpos, (proj1 Hhi)).
  rewrite (proj2 (Rltb_true 0 lo)), (proj2 (Rltb_true 0 hi)) by assumption. cbn [andb].
  eexists. split; [reflexivity|]. rewrite map_length, linspace_length.
  assert (0 <= log10 hi - log10 lo).
  { destruct (Req_dec lo hi) as [->|Hne]; [lra|]. assert (lo <= hi) by (apply (proj2 Hlo), (proj1 Hhi)).
    pose proof (log10_lt lo hi ltac:(assumption) ltac:(lra)). lra. }
  rewrite Rabs_pos_eq by assumption.
  assert (0 <= (log10 hi - log10 lo) * dex) by (apply Rmult_le_pos; assumption).
  replace (ceil_nat ((log10 hi - log10 lo) * dex) + 1 - 1)%nat with (ceil_nat ((log10 hi - log10 lo) * dex)) by lia.
  split; [apply ceil_nat_ge|apply ceil_nat_lt]; assumption.
Qed.
Theorem spacing_bad_scale data positive prev st ls lim num dex : spacing data positive prev st ls lim ScOther num dex = Some (Err RuntimeError).
Proof. reflexivity. Qed.
Theorem spacing_empty positive st ls lim num dex sc : sc <> ScOther -> spacing [] positive None st ls lim sc num dex = Some (Err TypeError).
Proof. intros H. destruct sc; [reflexivity..|contradiction]. Qed.

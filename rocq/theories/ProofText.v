(** Proofs about text output. *)
From Coq Require Import String ZArith Lra Lia Permutation.
From Verif Require Import Base ModelKDE ModelUtils ModelCarpet ModelSample ModelInt ModelInterp ModelText SpecText SpecUtils ProofUtils ProofUtils2 ProofUtils3 ProofInterp ProofPlot4 ProofWarn.
Open Scope R_scope.
Notation length := List.length.

Lemma join_listed {A} (f : A -> string) l : listed f l (join (map f l)).
Proof.
  induction l as [|a l IH]; [constructor|]. destruct l as [|b l]; [constructor|]. change (listed f (a :: b :: l) (f a ++ ", " ++ join (map f (b :: l)))%string).
  constructor. exact IH.
Qed.
Lemma listed_unique {A} (f : A -> string) l t u : listed f l t -> listed f l u -> t = u.
Proof.
  intros H. revert u. induction H as [|a|a b l t H IH]; intros u Hu; inversion Hu; subst; try reflexivity. f_equal. f_equal. apply IH. assumption.
Qed.
Lemma mapM_numbers (fmt : R -> string) l : mapM (fun e : elem => match e with Number x => Ok (fmt x) | Row => @Err string TypeError end) (map Number l) = Ok (map fmt l).
Proof. induction l as [|x l IH]; [reflexivity|]. cbn [map mapM bind]. rewrite IH. reflexivity. Qed.
Lemma astr_numbers fmt l : astr fmt (map Number l) = Ok (join (map fmt l)).
Proof. unfold astr. rewrite mapM_numbers. reflexivity. Qed.
Lemma upto_map {A B} (f : A -> B) l k : upto (map f l) k = map f (upto l k).
Proof. unfold upto, position. rewrite map_length, firstn_map. reflexivity. Qed.
Lemma from_map {A B} (f : A -> B) l k : from (map f l) k = map f (from l k).
Proof. unfold from, position. rewrite map_length, skipn_map. reflexivity. Qed.

Theorem array_str_short : forall fmt l num, (num = None \/ exists k, num = Some k /\ (Z.of_nat (length l) <= 2 * k)%Z) ->
  exists t, listed fmt l t /\ array_str fmt (map Number l) num = Ok ("[" ++ t ++ "]")%string.
Proof.
  intros fmt l num H. exists (join (map fmt l)). split; [apply join_listed|]. unfold array_str.
  destruct H as [-> |[k [-> H]]]; [rewrite astr_numbers; reflexivity|]. rewrite map_length.
  destruct (Z.leb_spec (Z.of_nat (length l)) (2 * k)) as [_|X]; [|lia]. rewrite astr_numbers. reflexivity.
Qed.
Theorem array_str_cut : forall fmt a m b k, length a = k -> length b = k -> (1 <= k)%nat -> (1 <= length m)%nat ->
  exists t u, listed fmt a t /\ listed fmt b u /\ array_str fmt (map Number (a ++ m ++ b)) (Some (Z.of_nat k)) = Ok ("[" ++ (t ++ " ... " ++ u) ++ "]")%string.
Proof.
  intros fmt a m b k Ha Hb Hk Hm. exists (join (map fmt a)), (join (map fmt b)). split; [apply join_listed|]. split; [apply join_listed|].
  unfold array_str. rewrite map_length, !app_length.
  destruct (Z.leb_spec (Z.of_nat (length a + (length m + length b))) (2 * Z.of_nat k)) as [X|_]; [lia|].
  rewrite upto_map, from_map, !astr_numbers. cbn [bind].
  assert (E1 : upto (a ++ m ++ b) (Z.of_nat k) = a).
  { unfold upto, position. destruct (Z.ltb_spec (Z.of_nat k) 0) as [X|_]; [lia|]. rewrite Nat2Z.id, <- Ha, firstn_app, Nat.sub_diag, firstn_all. cbn. apply app_nil_r. }
  assert (E2 : from (a ++ m ++ b) (- Z.of_nat k) = b).
  { unfold from, position. destruct (Z.ltb_spec (- Z.of_nat k) 0) as [_|X]; [|lia].
    replace (Z.to_nat (Z.of_nat (length (a ++ m ++ b)) + - Z.of_nat k)) with (length (a ++ m)) by (rewrite !app_length; lia).
    rewrite app_assoc, skipn_app, Nat.sub_diag, skipn_all. reflexivity. }
  rewrite E1, E2. reflexivity.
Qed.
(** num = 0: everything. *)
Theorem array_str_zero : forall fmt l, l <> [] -> exists t, listed fmt l t /\ array_str fmt (map Number l) (Some 0%Z) = Ok ("[ ... " ++ t ++ "]")%string.
Proof.
  intros fmt l H. exists (join (map fmt l)). split; [apply join_listed|]. unfold array_str. rewrite map_length.
  destruct (Z.leb_spec (Z.of_nat (length l)) (2 * 0)) as [X|_]; [destruct l; [contradiction|cbn in X; lia]|].
  rewrite upto_map, from_map, !astr_numbers. reflexivity.
Qed.
(** Negative num: both ends cut off, the middle twice. *)
Theorem array_str_negative : forall fmt l k, (1 <= k)%nat -> (k <= length l)%nat ->
  exists t u, listed fmt (firstn (length l - k) l) t /\ listed fmt (skipn k l) u
  /\ array_str fmt (map Number l) (Some (- Z.of_nat k)%Z) = Ok ("[" ++ (t ++ " ... " ++ u) ++ "]")%string.
Proof.
  intros fmt l k Hk Hl. exists (join (map fmt (firstn (length l - k) l))), (join (map fmt (skipn k l))). split; [apply join_listed|]. split; [apply join_listed|].
  unfold array_str. rewrite map_length. destruct (Z.leb_spec (Z.of_nat (length l)) (2 * - Z.of_nat k)) as [X|_]; [lia|].
  rewrite upto_map, from_map, !astr_numbers. cbn [bind].
  assert (E1 : upto l (- Z.of_nat k) = firstn (length l - k) l).
  { unfold upto, position. destruct (Z.ltb_spec (- Z.of_nat k) 0) as [_|X]; [|lia]. f_equal. lia. }
  assert (E2 : from l (- - Z.of_nat k) = skipn k l).
  { unfold from, position. destruct (Z.ltb_spec (- - Z.of_nat k) 0) as [X|_]; [lia|]. f_equal. lia. }
  rewrite E1, E2. reflexivity.
Qed.

(** stats *)
Lemma astr_rows fmt n : (1 <= n)%nat -> astr fmt (repeat Row n) = Err TypeError.
Proof. destruct n as [|n]; [lia|]. reflexivity. Qed.
Lemma firstn_repeat {A} (x : A) k n : firstn k (repeat x n) = repeat x (Nat.min k n).
Proof. revert n. induction k as [|k IH]; intros [|n]; cbn; [reflexivity..|]. rewrite IH. reflexivity. Qed.
Lemma array_str_rows fmt n k : (1 <= n)%nat -> (0 <= k)%Z -> array_str fmt (repeat Row n) (Some k) = Err TypeError.
Proof.
  intros Hn Hk. unfold array_str. rewrite repeat_length. destruct (Z.leb_spec (Z.of_nat n) (2 * k)) as [_|X].
  - rewrite astr_rows by exact Hn. reflexivity.
  - unfold upto, from, position. rewrite repeat_length. destruct (Z.ltb_spec k 0) as [Y|_]; [lia|]. rewrite firstn_repeat.
    destruct (Z.eq_dec k 0) as [-> |Hk0].
    + cbn. rewrite astr_rows by exact Hn. reflexivity.
    + rewrite astr_rows by lia. reflexivity.
Qed.
Theorem stats_rows : forall sorter fm fp fs n m rest vals isint shape k st, (1 <= n)%nat -> (0 <= k)%Z ->
  stats sorter fm fp fs (mkArr (n :: m :: rest) vals isint) shape (Some k) st = Err TypeError.
Proof. intros. unfold stats, elems. cbn [a_shape bind]. rewrite array_str_rows by assumption. reflexivity. Qed.
Theorem stats_nothing : forall sorter fm fp fs a, stats sorter fm fp fs a false None false = Err ValueError.
Proof. reflexivity. Qed.
Theorem stats_zero : forall sorter fm fp fs l isint, l <> [] -> exists t, listed (fm Exponent) l t
  /\ stats sorter fm fp fs (mkArr [length l] l isint) true (Some 0%Z) false = Ok (fs [length l] ++ " - [ ... " ++ t ++ "]")%string.
Proof.
  intros sorter fm fp fs l isint H. destruct (array_str_zero (fm Exponent) l H) as [t [H1 H2]]. exists t. split; [exact H1|].
  unfold stats, elems. cbn [a_shape a_vals bind]. rewrite H2. cbn [bind negb andb]. f_equal. f_equal.
  change (" - [ ... " ++ t ++ "]")%string with (" - " ++ ("[ ... " ++ t ++ "]"))%string. 
  generalize ("[ ... " ++ t ++ "]")%string. intros s. cbn. repeat f_equal. induction s as [|c s IH]; [reflexivity|]. cbn. f_equal. exact IH.
Qed.
Theorem stats_scalar : forall sorter fm fp fs vals isint shape k st, stats sorter fm fp fs (mkArr [] vals isint) shape (Some k) st = Err TypeError.
Proof. reflexivity. Qed.

(** stats_str *)
Lemma app_nil_s s : (s ++ "")%string = s.
Proof. induction s as [|c s IH]; [reflexivity|]. cbn. rewrite IH. reflexivity. Qed.

Lemma abs_logs v : v <> 0 -> (log10 (Rabs v) < -2 <-> Rabs v < / 100) /\ (2 < log10 (Rabs v) <-> 100 < Rabs v).
Proof.
  intros N. assert (P := Rabs_pos_lt v N). assert (E : log10 100 = 2). { replace 100 with (10 ^ 2) by lra. rewrite log10_pow. cbn. lra. }
  assert (E2 : log10 (/ 100) = -2). { rewrite log10_inv by lra. lra. }
  split; [rewrite <- E2; apply log10_lt_iff; [exact P|lra]|rewrite <- E; apply log10_lt_iff; [lra|exact P]].
Qed.
Lemma guess_style l isint allow : style_for l (andb isint allow) (guess_format l isint allow).
Proof.
  unfold guess_format. destruct (filter (fun x => negb (Reqb x 0)) l) as [|x r] eqn:F.
  - constructor. intros x Hx. destruct (Reqb_spec x 0) as [E|N]; [exact E|]. exfalso.
    assert (H : In x (filter (fun x => negb (Reqb x 0)) l)). { apply filter_In. split; [exact Hx|]. destruct (Reqb_spec x 0); [contradiction|reflexivity]. }
    rewrite F in H. destruct H.
  - assert (HF : forall y, In y (x :: r) <-> In y l /\ y <> 0).
    { intros y. rewrite <- F, filter_In. split; intros [H1 H2]; (split; [exact H1|]); destruct (Reqb_spec y 0); try discriminate; try contradiction; try assumption; reflexivity. }
    assert (Lo : nonzero_min l (vmin x r)). { destruct (vmin_spec x r) as [H1 H2]. apply HF in H1. destruct H1 as [H1 N]. split; [exact H1|]. split; [exact N|].
      intros y Hy Ny. apply H2, HF. split; assumption. }
    assert (Hi : nonzero_max l (vmax x r)). { destruct (vmax_spec x r) as [H1 H2]. apply HF in H1. destruct H1 as [H1 N]. split; [exact H1|]. split; [exact N|].
      intros y Hy Ny. apply H2, HF. split; assumption. }
    destruct (abs_logs (vmin x r) (proj1 (proj2 Lo))) as [A1 A2]. destruct (abs_logs (vmax x r) (proj1 (proj2 Hi))) as [B1 B2].
    cbn [map existsb]. 
    destruct (Rltb_spec (log10 (Rabs (vmin x r))) (-2)) as [C1|C1]; [cbn [orb]; apply (sf_exp _ _ _ _ Lo Hi); left; apply A1, C1|].
    destruct (Rltb_spec (log10 (Rabs (vmax x r))) (-2)) as [C2|C2]; [cbn [orb]; apply (sf_exp _ _ _ _ Lo Hi); right; right; left; apply B1, C2|].
    destruct (Rltb_spec 2 (log10 (Rabs (vmin x r)))) as [C3|C3]; [cbn [orb]; apply (sf_exp _ _ _ _ Lo Hi); right; left; apply A2, C3|].
    destruct (Rltb_spec 2 (log10 (Rabs (vmax x r)))) as [C4|C4]; [cbn [orb]; apply (sf_exp _ _ _ _ Lo Hi); right; right; right; apply B2, C4|].
    cbn [orb]. rewrite A1 in C1. rewrite B1 in C2. rewrite A2 in C3. rewrite B2 in C4. 
    destruct (andb isint allow) eqn:Ei; [apply (sf_dec _ _ _ _ Lo Hi)|apply (sf_fix _ _ _ _ Lo Hi)]; try reflexivity; lra.
Qed.
(** The style is determined by the specification. *)
Lemma style_for_unique l i s s' : style_for l i s -> style_for l i s' -> s = s'.
Proof.
  assert (U1 : forall a b, nonzero_min l a -> nonzero_min l b -> a = b).
  { intros a b [H1 [H2 H3]] [G1 [G2 G3]]. apply Rle_antisym; [apply H3|apply G3]; assumption. }
  assert (U2 : forall a b, nonzero_max l a -> nonzero_max l b -> a = b).
  { intros a b [H1 [H2 H3]] [G1 [G2 G3]]. apply Rle_antisym; [apply G3|apply H3]; assumption. }
  assert (Z : forall m, nonzero_min l m -> ~ forall x, In x l -> x = 0). { intros m [H1 [H2 _]] H. apply H2, H, H1. }
  intros H G. destruct H as [H|lo hi H1 H2 H3|lo hi H1 H2 H3 H4 H5|lo hi H1 H2 H3 H4 H5]; destruct G as [G|lo' hi' G1 G2 G3|lo' hi' G1 G2 G3 G4 G5|lo' hi' G1 G2 G3 G4 G5];
    try reflexivity; try (exfalso; eapply Z; eassumption); try congruence; exfalso; rewrite (U1 _ _ H1 G1), (U2 _ _ H2 G2) in *; lra.
Qed.
Lemma style_ok l isint allow format : style_used l (andb isint allow) format (match format with None => guess_format l isint allow | Some s => Given s end).
Proof. destruct format as [s|]; [reflexivity|apply guess_style]. Qed.
Lemma app_assoc_s a b c : ((a ++ b) ++ c)%string = (a ++ (b ++ c))%string.
Proof. induction a as [|x a IH]; [reflexivity|]. cbn. rewrite IH. reflexivity. Qed.
Theorem summary_text : forall sorter fm fp a ps ws format qs, ps <> [] -> a_int a = false ->
  quantiles sorter (a_vals a) (Some ps) ws false = Ok qs ->
  exists t u st, style_used (a_vals a) false format st /\ listed (fm st) qs t /\ listed fp ps u
  /\ stats_str sorter fm fp a (PcList ps) false false ws format false true = Ok ("(" ++ t ++ ")" ++ ", for (" ++ u ++ ")")%string.
Proof.
  intros sorter fm fp a ps ws format qs Hp Hi HQ. unfold stats_str. rewrite Hi. destruct ps as [|p ps]; [contradiction|]. rewrite HQ. cbn [bind andb orb negb].
  eexists _, _, _. split; [exact (style_ok (a_vals a) false true format)|]. split; [apply join_listed|]. split; [apply join_listed|]. f_equal. apply (app_nil_s (_ ++ _)%string).
Qed.
Lemma put_int_cut x : exists k, put_int x = IZR k /\ cut_towards_zero x k.
Proof.
  exists (trunc_int x). split; [reflexivity|]. unfold cut_towards_zero, trunc_int. destruct (Rleb_spec 0 x) as [L|L].
  - left. split; [exact L|]. pose proof (base_Int_part x). lra.
  - right. apply Rnot_le_lt in L. split; [exact L|]. pose proof (base_Int_part (- x)). rewrite opp_IZR. lra.
Qed.
Lemma put_ints qs : exists ks, map put_int qs = map IZR ks /\ Forall2 cut_towards_zero qs ks.
Proof.
  induction qs as [|q qs [ks [E H]]]; [exists []; split; [reflexivity|constructor]|]. destruct (put_int_cut q) as [k [E2 H2]]. exists (k :: ks).
  split; [cbn; rewrite E, E2; reflexivity|constructor; assumption].
Qed.
Theorem summary_integers : forall sorter fm fp a ps ws format qs, ps <> [] -> a_int a = true ->
  quantiles sorter (a_vals a) (Some ps) ws false = Ok qs ->
  exists ks t u st, Forall2 cut_towards_zero qs ks /\ style_used (a_vals a) true format st /\ listed (fm st) (map IZR ks) t /\ listed fp ps u
  /\ stats_str sorter fm fp a (PcList ps) false false ws format false true = Ok ("(" ++ t ++ ")" ++ ", for (" ++ u ++ ")")%string.
Proof.
  intros sorter fm fp a ps ws format qs Hp Hi HQ. destruct (put_ints qs) as [ks [E H]]. unfold stats_str. rewrite Hi. destruct ps as [|p ps]; [contradiction|].
  rewrite HQ. cbn [bind andb orb negb]. exists ks. rewrite <- E. eexists _, _, _. split; [exact H|]. split; [exact (style_ok (a_vals a) true true format)|]. split; [apply join_listed|]. split; [apply join_listed|].
  f_equal. apply (app_nil_s (_ ++ _)%string).
Qed.

(** Average and deviation: of the numbers alone. *)
Theorem summary_moments : forall sorter fm fp a ps ws s t, ps <> [] -> a_int a = false ->
  stats_str sorter fm fp a (PcList ps) false false ws (Some s) false true = Ok t ->
  stats_str sorter fm fp a (PcList ps) true true ws (Some s) false true
    = Ok ("ave = " ++ fm (Given s) (np_mean (a_vals a)) ++ ", std = " ++ fm (Given s) (np_std (a_vals a)) ++ ", " ++ t)%string
  /\ stats_str sorter fm fp a (PcList ps) true false ws (Some s) false true = Ok ("ave = " ++ fm (Given s) (np_mean (a_vals a)) ++ ", " ++ t)%string
  /\ stats_str sorter fm fp a (PcList ps) false true ws (Some s) false true = Ok ("std = " ++ fm (Given s) (np_std (a_vals a)) ++ ", " ++ t)%string.
Proof.
  intros sorter fm fp a ps ws s t Hp Hi H. unfold stats_str in *. rewrite Hi in *. destruct ps as [|p ps]; [contradiction|].
  revert H. generalize (join (map fp (p :: ps))). intros u H. destruct (quantiles sorter (a_vals a) (Some (p :: ps)) ws false) as [qs|e]; [|discriminate H]. cbn [bind andb orb negb] in *. injection H as <-.
  split; [|split]; f_equal; rewrite ?app_nil_s; repeat (rewrite app_assoc_s || cbn [append]); reflexivity.
Qed.
Theorem summary_log : forall sorter fm fp l isint ps ave std ws s, 
  stats_str sorter fm fp (mkArr [length l] l isint) ps ave std ws (Some s) true false = stats_str sorter fm fp (mkArr [length l] (map log10 l) false) ps ave std ws (Some s) false true.
Proof. reflexivity. Qed.
Theorem summary_errors : forall sorter fm fp a ave std ws format log lab,
  stats_str sorter fm fp a PcNone ave std ws format log lab = Err TypeError
  /\ (forall p ps, In p ps -> p < 0 \/ 1 < p -> stats_str sorter fm fp a (PcList ps) ave std ws format log lab = Err AssertionError)
  /\ (forall ps, ps <> [] -> fractions ps -> a_vals a = [] -> (forall w, ws = Some w -> length w = 0%nat) -> stats_str sorter fm fp a (PcList ps) ave std ws format log lab = Err ValueError).
Proof.
  intros. split; [reflexivity|]. split.
  - intros p ps Hp Hr. unfold stats_str. destruct ps as [|p0 ps]; [destruct Hp|]. unfold quantiles.
    assert (E : forallb (fun p => andb (Rleb 0 p) (Rleb p 1)) (p0 :: ps) = false).
    { destruct (forallb _ _) eqn:E; [|reflexivity]. exfalso. rewrite forallb_forall in E. specialize (E p Hp). apply andb_true_iff in E. destruct E as [E1 E2].
      destruct (Rleb_spec 0 p); [|discriminate]. destruct (Rleb_spec p 1); [|discriminate]. lra. }
    rewrite E. reflexivity.
  - intros ps Hp Hf He Hw. unfold stats_str. destruct ps as [|p0 ps]; [contradiction|]. rewrite He.
    replace (if log then map log10 [] else []) with (@nil R) by (destruct log; reflexivity). unfold quantiles.
    assert (E : forallb (fun p => andb (Rleb 0 p) (Rleb p 1)) (p0 :: ps) = true).
    { apply forallb_forall. intros q Hq. destruct (Hf q Hq). apply andb_true_iff. split; apply Rleb_true; assumption. }
    rewrite E. cbn [negb andb]. destruct ws as [w|]; cbn [map length]; [rewrite (Hw w eq_refl)|]; reflexivity.
Qed.

(** The ends. *)
Lemma quantile_zero vw : vw <> [] -> all_pos (map snd vw) -> quantile_sorted vw 0 = vget (map fst vw) 0.
Proof.
  intros H P. assert (L : (0 < length vw)%nat) by (destruct vw; [contradiction|cbn; lia]).
  unfold quantile_sorted, np_interp. destruct (Rltb_spec 0 (vget (wquantiles vw) 0)) as [_|X]; [reflexivity|]. exfalso. apply X.
  rewrite wquantiles_nth by exact L. cbn [rsum]. assert (HW : 0 < lsum (map snd vw)) by (apply all_pos_sum; [assumption|intros E; apply map_eq_nil in E; contradiction]).
  assert (0 < vget (map snd vw) 0) by (apply all_pos_nth; [assumption|rewrite map_length; lia]). apply Rdiv_lt_0_compat; lra.
Qed.
Lemma quantile_one vw : vw <> [] -> all_pos (map snd vw) -> quantile_sorted vw 1 = vget (map fst vw) (length vw - 1).
Proof.
  intros H P. assert (L : (0 < length vw)%nat) by (destruct vw; [contradiction|cbn; lia]). unfold quantile_sorted.
  apply np_interp_top; [apply wquantiles_incr; assumption|]. rewrite wquantiles_nth by lia.
  assert (HW : 0 < lsum (map snd vw)) by (apply all_pos_sum; [assumption|intros E; apply map_eq_nil in E; contradiction]).
  assert (0 < vget (map snd vw) (length vw - 1)) by (apply all_pos_nth; [assumption|rewrite map_length; lia]).
  assert (E : lsum (map snd vw) = rsum (length vw) (vget (map snd vw))). { rewrite <- (map_length snd vw). rewrite lsum_rsum. reflexivity. }
  apply (Rmult_le_reg_r (lsum (map snd vw))); [exact HW|]. unfold Rdiv at 1. rewrite Rmult_assoc, Rinv_l, Rmult_1_r, Rmult_1_l by lra.
  replace (length vw) with (S (length vw - 1)) in E by lia. cbn [rsum] in E. rewrite E. lra.
Qed.
Theorem ends_shown : forall sorter values ws lo hi qs ps, sorts sorter -> length ws = length values -> all_pos ws -> fractions ps -> min_of values lo -> max_of values hi ->
  quantiles sorter values (Some ps) (Some ws) false = Ok qs ->
  forall i, (i < length ps)%nat -> (nth i ps 0 = 0 -> nth i qs 0 = lo) /\ (nth i ps 0 = 1 -> nth i qs 0 = hi).
Proof.
  intros sorter values ws lo hi qs ps Hs Hl Hp Hf Hlo Hhi HQ i Hi. assert (Hne : values <> []) by (intros ->; destruct Hlo as [[] _]).
  rewrite quantiles_run in HQ by assumption. injection HQ as <-. destruct (sorter_facts sorter values ws Hs Hne Hl Hp) as (H1 & H2 & H3 & H4 & _).
  set (vw := sorter (combine values ws)) in *. assert (L : (0 < length vw)%nat) by (destruct vw; [contradiction|cbn; lia]).
  assert (EN : nth i (map (quantile_sorted vw) ps) 0 = quantile_sorted vw (nth i ps 0)).
  { rewrite (nth_indep _ 0 (quantile_sorted vw 0)) by (rewrite map_length; exact Hi). apply map_nth. }
  assert (A : forall i, (i < length vw)%nat -> In (vget (map fst vw) i) values).
  { intros k Hk. eapply Permutation_in; [apply Permutation_sym, H4|]. apply nth_In. rewrite map_length. exact Hk. }
  assert (B : forall v, In v values -> exists k, (k < length vw)%nat /\ v = vget (map fst vw) k).
  { intros v Hv. assert (G : In v (map fst vw)) by (eapply Permutation_in; [exact H4|exact Hv]). destruct (In_nth _ _ 0 G) as [k [Hk E]]. rewrite map_length in Hk.
    exists k. split; [exact Hk|symmetry; exact E]. }
  pose proof (sorted_nondecr vw H3) as Mo. rewrite EN. split; intros ->.
  - rewrite quantile_zero by assumption. apply Rle_antisym; [|apply (proj2 Hlo), A, L].
    destruct (B lo (proj1 Hlo)) as [k [Hk ->]]. apply Mo; lia.
  - rewrite quantile_one by assumption. apply Rle_antisym; [apply (proj2 Hhi), A; lia|].
    destruct (B hi (proj1 Hhi)) as [k [Hk ->]]. apply Mo; lia.
Qed.
(** Integers: the median of 1 and 2. *)
Lemma half_two sorter : sorts sorter -> quantiles sorter [1; 2] (Some [1 / 2]) None false = Ok [3 / 2].
Proof.
  intros Hs. rewrite quantiles_unweighted. rewrite quantiles_run; [|discriminate|reflexivity|intros p [<-|[]]; lra]. cbn [map].
  assert (E : [(1, 1); (2, 1)] = sorter (combine [1; 2] [1; 1])).
  { destruct (Hs (combine [1; 2] [1; 1])) as [HP HS]. apply sort_unique; [exact HP| |exact HS|].
    - intros i j Hij Hj. cbn in Hj |- *. destruct i as [|[|i]]; destruct j as [|[|j]]; cbn; try lra; lia.
    - cbn. repeat constructor; cbn; intuition lra. }
  rewrite <- E. f_equal. f_equal. unfold quantile_sorted. cbn [map length fst Nat.sub].
  assert (W : forall i, (i < 2)%nat -> vget (wquantiles [(1, 1); (2, 1)]) i = 1 / 4 + INR i / 2).
  { intros i Hi. rewrite wquantiles_nth by exact Hi. destruct i as [|[|i]]; [cbn; lra|cbn; lra|lia]. }
  rewrite (np_interp_in _ _ 1 (1 / 2) 0); [|apply (wquantiles_incr [(1, 1); (2, 1)]); [discriminate|intros w [<-|[<-|[]]]; cbn; lra]|lia|rewrite !W by lia; cbn; lra].
  rewrite !W by lia. cbn. lra.
Qed.
Theorem integer_refuted : exists l ps q, (forall sorter, sorts sorter -> quantiles sorter l (Some ps) None false = Ok [q])
  /\ (forall sorter fm fp, sorts sorter -> stats_str sorter fm fp (mkArr [2%nat] l true) (PcList ps) false false None None false true
       = Ok ("(" ++ fm Decimal 1 ++ ")" ++ ", for (" ++ fp (1 / 2) ++ ")")%string) /\ q = 3 / 2 /\ l = [1; 2] /\ ps = [1 / 2].
Proof.
  exists [1; 2], [1 / 2], (3 / 2). split; [exact half_two|]. split; [|repeat split; reflexivity].
  intros sorter fm fp Hs. pose proof (summary_integers sorter fm fp (mkArr [2%nat] [1; 2] true) [1 / 2] None None [3 / 2] ltac:(discriminate) eq_refl (half_two sorter Hs)) as H.
  destruct H as (ks & t & u & st & H1 & H2 & H3 & H4 & H5). rewrite H5.
  assert (K : ks = [1%Z]). { inversion H1 as [|x y l l' Hc Hr]; subst. inversion Hr; subst. destruct Hc as [[_ Hc]|[Hc _]]; [|lra]. f_equal.
    destruct Hc as [C1 C2]. assert (IZR y < 2) by lra. assert (0 < IZR y) by lra. apply (lt_IZR y 2) in H. apply (lt_IZR 0 y) in H0. lia. }
  subst ks. assert (S : st = Decimal). { apply (style_for_unique _ _ _ _ H2). apply (sf_dec _ _ 1 2); cbn [a_vals].
    - repeat split; [left; reflexivity|lra|intros x [<-|[<-|[]]] _; lra].
    - repeat split; [right; left; reflexivity|lra|intros x [<-|[<-|[]]] _; lra].
    - rewrite Rabs_R1. lra. - rewrite Rabs_right; lra. - reflexivity. }
  subst st. inversion H3; subst. inversion H4; subst. reflexivity.
Qed.
Theorem small_refuted : exists l x, In x l /\ x <> 0 /\ Rabs x < / 200 /\ guess_format l false true = Fixed.
Proof.
  exists [-1; / 1000; 1], (/ 1000). split; [right; left; reflexivity|]. split; [lra|]. split; [rewrite Rabs_right; lra|].
  apply (style_for_unique [-1; / 1000; 1] false); [exact (guess_style [-1; / 1000; 1] false true)|]. apply (sf_fix _ _ (-1) 1).
  - repeat split; [left; reflexivity|lra|intros x [<-|[<-|[<-|[]]]] _; lra].
  - repeat split; [right; right; left; reflexivity|lra|intros x [<-|[<-|[<-|[]]]] _; lra].
  - rewrite Rabs_left; lra. - rewrite Rabs_R1. lra. - reflexivity.
Qed.
Theorem weights_refuted : exists l ws m, m = lsum (map (fun p : R * R => fst p * snd p) (combine l ws)) / lsum ws /\ np_mean l <> m
  /\ forall sorter fm fp s, stats_str sorter fm fp (mkArr [length l] l false) (PcList []) true false (Some ws) (Some s) false true = Ok ("ave = " ++ fm (Given s) (np_mean l))%string.
Proof.
  exists [0; 1], [1; 3], (3 / 4). split; [cbn; field|]. split; [unfold np_mean; cbn; lra|]. intros sorter fm fp s. unfold stats_str. cbn [bind a_vals a_int orb andb].
  rewrite !app_nil_s. reflexivity.
Qed.
(** stats without arguments. *)
Lemma stats_default : forall sorter fm fp fs a qs, a_int a = false -> quantiles sorter (a_vals a) (Some [0; 16 / 100; 1 / 2; 84 / 100; 1]) None false = Ok qs ->
  exists t u st, style_used (a_vals a) false None st /\ listed (fm st) qs t /\ listed fp [0; 16 / 100; 1 / 2; 84 / 100; 1] u
  /\ stats sorter fm fp fs a true None true = Ok (fs (a_shape a) ++ " - (" ++ t ++ "), for (" ++ u ++ ")")%string.
Proof.
  intros sorter fm fp fs a qs Hi Hq. destruct (summary_text sorter fm fp a [0; 16 / 100; 1 / 2; 84 / 100; 1] None None qs) as (t & u & st & H1 & H2 & H3 & H4); [discriminate|exact Hi|exact Hq|].
  exists t, u, st. split; [exact H1|]. split; [exact H2|]. split; [exact H3|]. unfold stats, default_percs. cbn [bind]. rewrite H4. cbn [bind negb andb]. reflexivity.
Qed.
Lemma append_cancel : forall a b c : string, (a ++ b)%string = (a ++ c)%string -> b = c.
Proof. induction a as [|x a IH]; intros b c H; [exact H|]. cbn in H. injection H as H. apply IH, H. Qed.
Lemma append_nil_r' : forall a : string, (a ++ "")%string = a.
Proof. induction a as [|x a IH]; [reflexivity|]. cbn. rewrite IH. reflexivity. Qed.
Lemma append_assoc' : forall a b c : string, ((a ++ b) ++ c)%string = (a ++ (b ++ c))%string.
Proof. induction a as [|x a IH]; intros b c; [reflexivity|]. cbn. rewrite IH. reflexivity. Qed.
Lemma stats_parts : forall sorter fm fp fs l isint k t, stats sorter fm fp fs (mkArr [length l] l isint) true (Some k) false = Ok t ->
  forall s, stats sorter fm fp fs (mkArr [length l] l isint) true None true = Ok (fs [length l] ++ s)%string -> stats sorter fm fp fs (mkArr [length l] l isint) true (Some k) true = Ok (t ++ s)%string.
Proof.
  intros sorter fm fp fs l isint k t H1 s H2. unfold stats in *. cbn [bind a_shape negb andb] in *. destruct (elems _) as [el|]; [|discriminate]. cbn [bind] in *. destruct (array_str _ _ _) as [r|]; [|discriminate]. cbn [bind] in *.
  destruct (stats_str _ _ _ _ _ _ _ _ _ _ _) as [q|]; [|discriminate]. cbn [bind] in *. injection H1 as <-. injection H2 as H2. f_equal.
  assert (E : (" - " ++ q)%string = s). { apply (append_cancel (fs [length l])). exact H2. } rewrite <- E. rewrite !append_nil_r'. rewrite !append_assoc'. reflexivity.
Qed.

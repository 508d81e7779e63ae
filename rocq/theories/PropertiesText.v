(** Properties C122-C123: text output of arrays. *)
From Coq Require Import String ZArith.
From Verif Require Import Base ModelKDE ModelUtils ModelCarpet ModelSample ModelInt SpecUtils ModelText SpecText ProofText.
Open Scope R_scope.
Notation length := List.length.

(** * C122 *)
(** All numbers are shown if num is None or at least half of them. *)
Theorem C122_short : forall fmt l num, (num = None \/ exists k, num = Some k /\ (Z.of_nat (length l) <= 2 * k)%Z) ->
  exists t, listed fmt l t /\ array_str fmt (map Number l) num = Ok ("[" ++ t ++ "]")%string.
Proof. exact array_str_short. Qed.
Print Assumptions C122_short.

(** Otherwise num numbers from the beginning and num from the end. *)
Theorem C122_cut : forall fmt a m b k, length a = k -> length b = k -> (1 <= k)%nat -> (1 <= length m)%nat ->
  exists t u, listed fmt a t /\ listed fmt b u /\ array_str fmt (map Number (a ++ m ++ b)) (Some (Z.of_nat k)) = Ok ("[" ++ (t ++ " ... " ++ u) ++ "]")%string.
Proof. exact array_str_cut. Qed.
Print Assumptions C122_cut.

(** num = 0 shows all numbers, not none. *)
Theorem C122_zero_refuted : forall fmt l, l <> [] -> exists t, listed fmt l t /\ array_str fmt (map Number l) (Some 0%Z) = Ok ("[ ... " ++ t ++ "]")%string.
Proof. exact array_str_zero. Qed.
Print Assumptions C122_zero_refuted.

(** Negative num: the ends are cut off instead, and what remains overlaps. *)
Theorem C122_negative : forall fmt l k, (1 <= k)%nat -> (k <= length l)%nat ->
  exists t u, listed fmt (firstn (length l - k) l) t /\ listed fmt (skipn k l) u
  /\ array_str fmt (map Number l) (Some (- Z.of_nat k)%Z) = Ok ("[" ++ (t ++ " ... " ++ u) ++ "]")%string.
Proof. exact array_str_negative. Qed.
Print Assumptions C122_negative.

(** So does stats with sample = 0. *)
Theorem C122_stats_zero : forall sorter fm fp fs l isint, l <> [] -> exists t, listed (fm Exponent) l t
  /\ stats sorter fm fp fs (mkArr [length l] l isint) true (Some 0%Z) false = Ok (fs [length l] ++ " - [ ... " ++ t ++ "]")%string.
Proof. exact stats_zero. Qed.
Print Assumptions C122_stats_zero.

(** stats with a sample of an array of two or more dimensions: TypeError. *)
Theorem C122_rows : forall sorter fm fp fs n m rest vals isint shape k st, (1 <= n)%nat -> (0 <= k)%Z ->
  stats sorter fm fp fs (mkArr (n :: m :: rest) vals isint) shape (Some k) st = Err TypeError.
Proof. exact stats_rows. Qed.
Print Assumptions C122_rows.

(** ... of a plain number: TypeError. *)
Theorem C122_scalar : forall sorter fm fp fs vals isint shape k st, stats sorter fm fp fs (mkArr [] vals isint) shape (Some k) st = Err TypeError.
Proof. exact stats_scalar. Qed.
Print Assumptions C122_scalar.

(** Nothing requested: ValueError. *)
Theorem C122_nothing : forall sorter fm fp fs a, stats sorter fm fp fs a false None false = Err ValueError.
Proof. exact stats_nothing. Qed.
Print Assumptions C122_nothing.

Example C122_example : forall fmt, array_str fmt [Number 1; Number 2; Number 3; Number 4; Number 5] (Some 2%Z)
  = Ok ("[" ++ ((fmt 1 ++ ", " ++ fmt 2) ++ " ... " ++ (fmt 4 ++ ", " ++ fmt 5)) ++ "]")%string.
Proof. reflexivity. Qed.

(** * C123 *)
(** The style is decided by the sizes of the smallest and largest number different from zero. *)
Theorem C123_style : forall l isint allow, style_for l (andb isint allow) (guess_format l isint allow).
Proof. exact guess_style. Qed.
Print Assumptions C123_style.

(** These rules leave no choice. *)
Theorem C123_style_unique : forall l i s s', style_for l i s -> style_for l i s' -> s = s'.
Proof. exact style_for_unique. Qed.
Print Assumptions C123_style_unique.

(** Small numbers between a negative and a positive end are shown as 0.00. *)
Theorem C123_small_refuted : exists l x, In x l /\ x <> 0 /\ Rabs x < / 200 /\ guess_format l false true = Fixed.
Proof. exact small_refuted. Qed.
Print Assumptions C123_small_refuted.

(** The quantiles and their percentages. *)
Theorem C123_text : forall sorter fm fp a ps ws format qs, ps <> [] -> a_int a = false ->
  quantiles sorter (a_vals a) (Some ps) ws false = Ok qs ->
  exists t u st, style_used (a_vals a) false format st /\ listed (fm st) qs t /\ listed fp ps u
  /\ stats_str sorter fm fp a (PcList ps) false false ws format false true = Ok ("(" ++ t ++ ")" ++ ", for (" ++ u ++ ")")%string.
Proof. exact summary_text. Qed.
Print Assumptions C123_text.

(** 0% and 100% are the smallest and the largest number. *)
Theorem C123_ends : forall sorter values ws lo hi qs ps, sorts sorter -> length ws = length values -> all_pos ws -> fractions ps -> min_of values lo -> max_of values hi ->
  quantiles sorter values (Some ps) (Some ws) false = Ok qs ->
  forall i, (i < length ps)%nat -> (nth i ps 0 = 0 -> nth i qs 0 = lo) /\ (nth i ps 0 = 1 -> nth i qs 0 = hi).
Proof. exact ends_shown. Qed.
Print Assumptions C123_ends.

(** For integer data the quantiles are cut to integers. *)
Theorem C123_integers : forall sorter fm fp a ps ws format qs, ps <> [] -> a_int a = true ->
  quantiles sorter (a_vals a) (Some ps) ws false = Ok qs ->
  exists ks t u st, Forall2 cut_towards_zero qs ks /\ style_used (a_vals a) true format st /\ listed (fm st) (map IZR ks) t /\ listed fp ps u
  /\ stats_str sorter fm fp a (PcList ps) false false ws format false true = Ok ("(" ++ t ++ ")" ++ ", for (" ++ u ++ ")")%string.
Proof. exact summary_integers. Qed.
Print Assumptions C123_integers.

(** So the median of 1 and 2 is shown as 1. *)
Theorem C123_integer_refuted : exists l ps q, (forall sorter, sorts sorter -> quantiles sorter l (Some ps) None false = Ok [q])
  /\ (forall sorter fm fp, sorts sorter -> stats_str sorter fm fp (mkArr [2%nat] l true) (PcList ps) false false None None false true
       = Ok ("(" ++ fm Decimal 1 ++ ")" ++ ", for (" ++ fp (1 / 2) ++ ")")%string) /\ q = 3 / 2 /\ l = [1; 2] /\ ps = [1 / 2].
Proof. exact integer_refuted. Qed.
Print Assumptions C123_integer_refuted.

(** Average and deviation are put in front; both are those without weights. *)
Theorem C123_moments : forall sorter fm fp a ps ws s t, ps <> [] -> a_int a = false ->
  stats_str sorter fm fp a (PcList ps) false false ws (Some s) false true = Ok t ->
  stats_str sorter fm fp a (PcList ps) true true ws (Some s) false true
    = Ok ("ave = " ++ fm (Given s) (np_mean (a_vals a)) ++ ", std = " ++ fm (Given s) (np_std (a_vals a)) ++ ", " ++ t)%string
  /\ stats_str sorter fm fp a (PcList ps) true false ws (Some s) false true = Ok ("ave = " ++ fm (Given s) (np_mean (a_vals a)) ++ ", " ++ t)%string
  /\ stats_str sorter fm fp a (PcList ps) false true ws (Some s) false true = Ok ("std = " ++ fm (Given s) (np_std (a_vals a)) ++ ", " ++ t)%string.
Proof. exact summary_moments. Qed.
Print Assumptions C123_moments.

(** The average shown is not the weighted one. *)
Theorem C123_weights_refuted : exists l ws m, m = lsum (map (fun p : R * R => fst p * snd p) (combine l ws)) / lsum ws /\ np_mean l <> m
  /\ forall sorter fm fp s, stats_str sorter fm fp (mkArr [length l] l false) (PcList []) true false (Some ws) (Some s) false true = Ok ("ave = " ++ fm (Given s) (np_mean l))%string.
Proof. exact weights_refuted. Qed.
Print Assumptions C123_weights_refuted.

(** log: the same for the logarithms. *)
Theorem C123_log : forall sorter fm fp l isint ps ave std ws s, 
  stats_str sorter fm fp (mkArr [length l] l isint) ps ave std ws (Some s) true false = stats_str sorter fm fp (mkArr [length l] (map log10 l) false) ps ave std ws (Some s) false true.
Proof. exact summary_log. Qed.
Print Assumptions C123_log.

(** Errors. *)
Theorem C123_errors : forall sorter fm fp a ave std ws format log lab,
  stats_str sorter fm fp a PcNone ave std ws format log lab = Err TypeError
  /\ (forall p ps, In p ps -> p < 0 \/ 1 < p -> stats_str sorter fm fp a (PcList ps) ave std ws format log lab = Err AssertionError)
  /\ (forall ps, ps <> [] -> fractions ps -> a_vals a = [] -> (forall w, ws = Some w -> length w = 0%nat) -> stats_str sorter fm fp a (PcList ps) ave std ws format log lab = Err ValueError).
Proof. exact summary_errors. Qed.
Print Assumptions C123_errors.

(** stats shows the smallest and largest number, the median and the quantiles 16% and 84%, after the sample if there is one. *)
Theorem C123_stats : forall sorter fm fp fs a qs, a_int a = false -> quantiles sorter (a_vals a) (Some [0; 16 / 100; 1 / 2; 84 / 100; 1]) None false = Ok qs ->
  exists t u st, style_used (a_vals a) false None st /\ listed (fm st) qs t /\ listed fp [0; 16 / 100; 1 / 2; 84 / 100; 1] u
  /\ stats sorter fm fp fs a true None true = Ok (fs (a_shape a) ++ " - (" ++ t ++ "), for (" ++ u ++ ")")%string.
Proof. exact stats_default. Qed.
Print Assumptions C123_stats.

Theorem C123_stats_sample : forall sorter fm fp fs l isint k t, stats sorter fm fp fs (mkArr [length l] l isint) true (Some k) false = Ok t ->
  forall s, stats sorter fm fp fs (mkArr [length l] l isint) true None true = Ok (fs [length l] ++ s)%string -> stats sorter fm fp fs (mkArr [length l] l isint) true (Some k) true = Ok (t ++ s)%string.
Proof. exact stats_parts. Qed.
Print Assumptions C123_stats_sample.

Example C123_stats_ex : forall sorter, exists qs, quantiles sorter [1; 2] (Some [0; 16 / 100; 1 / 2; 84 / 100; 1]) None false = Ok qs.
Proof.
  intros sorter. unfold quantiles. cbn [forallb]. repeat (rewrite (proj2 (Rleb_true _ _)) by lra). cbn [andb negb map length Nat.ltb Nat.leb]. eexists. reflexivity.
Qed.

Example C123_example : forall sorter fm fp, sorts sorter -> exists t u, listed (fm Fixed) [3 / 2] t /\ listed fp [1 / 2] u
  /\ stats_str sorter fm fp (mkArr [2%nat] [1; 2] false) (PcList [1 / 2]) false false None None false true = Ok ("(" ++ t ++ ")" ++ ", for (" ++ u ++ ")")%string.
Proof.
  intros sorter fm fp Hs. destruct (C123_text sorter fm fp (mkArr [2%nat] [1; 2] false) [1 / 2] None None [3 / 2] ltac:(discriminate) eq_refl (half_two sorter Hs)) as (t & u & st & H1 & H2 & H3 & H4).
  exists t, u. assert (E : st = Fixed); [|subst st; repeat split; assumption]. apply (style_for_unique [1; 2] false st Fixed); [exact H1|].
  apply (sf_fix _ _ 1 2); [| |rewrite Rabs_right; lra|rewrite Rabs_right; lra|reflexivity].
  - repeat split; [left; reflexivity|lra|intros x [<-|[<-|[]]] _; lra].
  - repeat split; [right; left; reflexivity|lra|intros x [<-|[<-|[]]] _; lra].
Qed.


(** Properties C58, C59, C63, C64, C86-C91: corner plots. *)
From Coq Require Import String Ascii ZArith Lia.
From Verif Require Import Base ModelLinAlg ModelKernels ModelKDE ModelExtrema ModelUtils ModelGrid ModelApi ModelCorner ModelOptions SpecUtils SpecCorner
  ProofOptions ProofCorner ProofCorner2 ProofCorner3 ProofCorner4.
Open Scope R_scope.
Notation length := List.length.

(** * C58 *)
(** After any history of calls of plot_kde and plot_data the limits of a parameter are the union of those given by the user and the ranges of the calls that determine limits ... *)
Theorem C58_union : forall sorter user size rotate c0 ks c, match user with None => True | Some l => length l = size end ->
  corner_init size rotate (user_pairs user) = Ok c0 -> corner_plots sorter c0 ks = Ok c ->
  exists rss, contributed sorter size (filter (effective (user_given user)) ks) rss
    /\ length (co_limits c) = size
    /\ forall i, (i < size)%nat -> union_of (user_range user i ++ map (fun rs => nth i rs (0, 0)) rss) (nth i (co_limits c) LvNone).
Proof. exact limits_union. Qed.
Print Assumptions C58_union.

(** ... so nothing changes without such a call, in particular with limits given by the user and calls without [limit] ... *)
Theorem C58_kept : forall sorter user size rotate c0 ks c, match user with None => True | Some l => length l = size end ->
  corner_init size rotate (user_pairs user) = Ok c0 -> corner_plots sorter c0 ks = Ok c -> (forall k, In k ks -> effective (user_given user) k = false) -> c = c0.
Proof. exact limits_kept. Qed.
Print Assumptions C58_kept.

(** ... and all data of those calls lie inside, for edges chosen automatically or data. *)
Theorem C58_inside : forall sorter user size rotate c0 ks c k i x, match user with None => True | Some l => length l = size end ->
  corner_init size rotate (user_pairs user) = Ok c0 -> corner_plots sorter c0 ks = Ok c ->
  In k ks -> effective (user_given user) k = true -> plottable size k -> (automatic k \/ pc_kde k = false) -> (i < size)%nat -> In x (nth i (pc_data k) []) ->
  exists a b, nth i (co_limits c) LvNone = LvPair a b /\ a <= x <= b.
Proof. exact data_inside. Qed.
Print Assumptions C58_inside.

(** Every history of calls with data and edges that can be plotted succeeds. *)
Theorem C58_total : forall sorter user size rotate ks, match user with None => True | Some l => length l = size end -> (forall k, In k ks -> plottable size k) ->
  exists c0 c, corner_init size rotate (user_pairs user) = Ok c0 /\ corner_plots sorter c0 ks = Ok c.
Proof. exact plots_total. Qed.
Print Assumptions C58_total.

(** Data with another number of parameters than the figure has are refused. *)
Theorem C58_size : forall sorter c, (forall k, length (pc_data k) <> co_size c -> corner_plot sorter c k = Err ValueError)
  /\ (forall vals limit, length vals <> co_size c -> plot_limits c vals limit = Err ValueError).
Proof. exact wrong_size. Qed.
Print Assumptions C58_size.

Example C58_size_example : exists c, corner_init 2 true None = Ok c /\ forall sorter, corner_plot sorter c (mkCall false [[1]; [2]; [3]] (EdAll EdAuto) None) = Err ValueError.
Proof. eexists. split; [reflexivity|]. intros sorter. apply wrong_size. cbn. discriminate. Qed.

Example C58_example : let k := mkCall false [[1; 3]; [0; 2]] (EdAll (EdNum 4)) None in let k' := mkCall false [[2; 4]; [-2; 1]] (EdAll (EdNum 4)) None in
  plottable 2 k /\ plottable 2 k' /\ automatic k /\ effective (user_given None) k = true /\ effective (user_given (Some [(0, 1); (0, 1)])) k = false
  /\ covers [1; 3] (1 - 1 / 10, 3 + 1 / 10) /\ covers [2; 4] (2 - 1 / 10, 4 + 1 / 10) /\ union_of [(1 - 1 / 10, 3 + 1 / 10); (2 - 1 / 10, 4 + 1 / 10)] (LvPair (1 - 1 / 10) (4 + 1 / 10)).
Proof.
  assert (P : forall a b c d, plottable 2 (mkCall false [[a; b]; [c; d]] (EdAll (EdNum 4)) None)).
  { intros. split; [reflexivity|]. split; [|cbn; discriminate]. intros row [<-|[<-|[]]]; discriminate. }
  split; [apply P|]. split; [apply P|]. split; [cbn; lia|]. split; [reflexivity|]. split; [reflexivity|].
  assert (M : forall a b : R, a <= b -> min_of [a; b] a /\ max_of [a; b] b).
  { intros a b H. split; (split; [cbn; auto|]); intros x [<-|[<-|[]]]; lra. }
  split; [exists 1, 3; split; [apply M; lra|]; split; [apply (M 1 3); lra|cbn; lra]|].
  split; [exists 2, 4; split; [apply M; lra|]; split; [apply (M 2 4); lra|cbn; lra]|].
  exists (1 - 1 / 10), (4 + 1 / 10). split; [reflexivity|]. cbn [map fst snd]. split; (split; [cbn; auto|]); intros x [<-|[<-|[]]]; lra.
Qed.

(** * C59 *)
(** A call with its own dictionaries is not influenced by earlier calls ... *)
Theorem C59_given : forall cs c d1 d2, oc_1 c = Some d1 -> oc_2 c = Some d2 ->
  ou_drawn (ocall_run (history new_session cs) c) = ou_drawn (ocall_run new_session c).
Proof. exact options_given. Qed.
Print Assumptions C59_given.

(** ... nor is any call of hist or plot_data. *)
Theorem C59_data : forall cs c, is_kde (oc_m c) = false -> ou_drawn (ocall_run (history new_session cs) c) = ou_drawn (ocall_run new_session c).
Proof. exact options_data. Qed.
Print Assumptions C59_data.

(** With default dictionaries nothing but quantiles and line style depends on the history; ... *)
Theorem C59_switches : forall cs c, reaches c = true -> oc_1 c = None -> oc_2 c = None ->
  exists x y x' y', ou_drawn (ocall_run (history new_session cs) c) = Ok (x, if Nat.ltb (oc_size c) 2 then None else Some y)
    /\ ou_drawn (ocall_run new_session c) = Ok (x', if Nat.ltb (oc_size c) 2 then None else Some y')
    /\ forall k, k <> "quantiles"%string -> k <> "ls"%string -> get k x = get k x' /\ get k y = get k y'.
Proof. exact options_switches. Qed.
Print Assumptions C59_switches.

(** ... those are the ones of the first such call of the same method that got as far as drawing: ... *)
Theorem C59_first : forall cs c, is_kde (oc_m c) = true -> reaches c = true -> oc_1 c = None -> oc_2 c = None ->
  exists x y c1 c2, find (uses_default1 (oc_m c)) (cs ++ [c]) = Some c1 /\ find (uses_default2 (oc_m c)) (cs ++ [c]) = Some c2
    /\ ou_drawn (ocall_run (history new_session cs) c) = Ok (x, if Nat.ltb (oc_size c) 2 then None else Some y)
    /\ get "quantiles"%string x = Some (oc_q c1) /\ get "ls"%string x = Some (line_style c1)
    /\ get "quantiles"%string y = Some (oc_q c2) /\ get "ls"%string y = Some (line_style c2).
Proof. exact options_default. Qed.
Print Assumptions C59_first.

(** ... quantiles given later are ignored. *)
Theorem C59_refuted : exists c1 c2 x y x' y', oc_m c1 = MClean /\ oc_m c2 = MClean /\ oc_1 c2 = None /\ oc_2 c2 = None
  /\ oc_q c2 = VList [9 / 10]
  /\ ou_drawn (ocall_run (history new_session [c1]) c2) = Ok (x, Some y) /\ get "quantiles"%string x = Some (VList [1 / 2]) /\ get "quantiles"%string y = Some (VList [1 / 2])
  /\ ou_drawn (ocall_run new_session c2) = Ok (x', Some y') /\ get "quantiles"%string x' = Some (VList [9 / 10]) /\ get "quantiles"%string y' = Some (VList [9 / 10]).
Proof. exact options_refuted. Qed.
Print Assumptions C59_refuted.

Example C59_example : let c := mkO MClean None None (VList [9 / 10]) None (Ok tt) (Ok tt) 3 in let c1 := mkO MPlot None None (VList [1 / 2]) None (Ok tt) (Ok tt) 3 in
  reaches c = true /\ is_kde (oc_m c) = true /\ find (uses_default1 (oc_m c)) [c1; c] = Some c /\ reaches (mkO MHist None None VNone None (Ok tt) (Ok tt) 3) = true
  /\ reaches (mkO MClean None None VNone None (Err ValueError) (Ok tt) 3) = false.
Proof. repeat split. Qed.

(** * C63 *)
(** Lines: exactly those of the targets, in each panel across its parameters. *)
Theorem C63_lines : forall c targets up lo ms i j o x, target c targets up lo = Ok ms ->
  (In (Line i j o x) ms <-> (i < co_size c)%nat /\ exists k, along (co_size c) (co_rotate c) i j k o /\ nth k targets None = Some x).
Proof. exact target_lines. Qed.
Print Assumptions C63_lines.

(** Shaded regions: from the lower edge of the axis to an upper limit; from a lower limit to the upper edge on the diagonal, to the lower edge elsewhere. *)
Theorem C63_spans : forall c targets up lo ms i j o p q, target c targets up lo = Ok ms ->
  (In (Span i j o p q) ms <-> (i < co_size c)%nat /\ exists k a b, along (co_size c) (co_rotate c) i j k o /\ nth_error (co_limits c) k = Some (LvPair a b)
     /\ ((given up k = Some q /\ p = a) \/ (given lo k = Some p /\ q = if Nat.eqb i j then b else a))).
Proof. exact target_spans. Qed.
Print Assumptions C63_spans.

(** So an upper limit is shaded alike in all panels ... *)
Theorem C63_upper : forall c targets up lo ms k a b x i j o, target c targets up lo = Ok ms -> nth_error (co_limits c) k = Some (LvPair a b) -> given up k = Some x ->
  (i < co_size c)%nat -> along (co_size c) (co_rotate c) i j k o -> In (Span i j o a x) ms.
Proof. exact target_upper. Qed.
Print Assumptions C63_upper.

(** ... but a lower limit is not. *)
Theorem C63_lower : forall c targets up lo ms k a b x, target c targets up lo = Ok ms -> nth_error (co_limits c) k = Some (LvPair a b) -> given lo k = Some x -> (k < co_size c)%nat -> (2 <= co_size c)%nat ->
  (exists o, along (co_size c) (co_rotate c) k k k o /\ In (Span k k o x b) ms)
  /\ (exists i j o, i <> j /\ (i < co_size c)%nat /\ along (co_size c) (co_rotate c) i j k o)
  /\ forall i j o, i <> j -> (i < co_size c)%nat -> along (co_size c) (co_rotate c) i j k o -> In (Span i j o x a) ms /\ (given up k = None -> a < b -> ~ In (Span i j o x b) ms).
Proof. exact target_lower. Qed.
Print Assumptions C63_lower.

(** With lists of the right length, and axis limits wherever a limit is given, it succeeds; ... *)
Theorem C63_total : forall c targets up lo, length targets = co_size c -> (forall l, up = Some l -> length l = co_size c) -> (forall l, lo = Some l -> length l = co_size c) ->
  (forall k, (k < co_size c)%nat -> given up k = None /\ given lo k = None \/ exists a b, nth_error (co_limits c) k = Some (LvPair a b)) ->
  exists ms, target c targets up lo = Ok ms.
Proof. exact target_total. Qed.
Print Assumptions C63_total.

(** ... lists of another length raise ValueError, ... *)
Theorem C63_errors : forall c targets up lo, length targets <> co_size c \/ (exists l, up = Some l /\ length l <> co_size c) \/ (exists l, lo = Some l /\ length l <> co_size c) ->
  target c targets up lo = Err ValueError.
Proof. exact target_errors. Qed.
Print Assumptions C63_errors.

(** ... limits before anything was plotted TypeError. *)
Theorem C63_unset : forall size rotate c targets up lo k, corner_init size rotate None = Ok c -> length targets = size -> (forall l, up = Some l -> length l = size) -> (forall l, lo = Some l -> length l = size) ->
  (k < size)%nat -> given up k <> None \/ given lo k <> None -> target c targets up lo = Err TypeError.
Proof. exact target_unset. Qed.
Print Assumptions C63_unset.

Example C63_example : let c := mkCorner 2 true [LvPair 0 10; LvPair 1 5] true (fresh_panels 2) in
  target c [Some 3; None] None (Some [Some 4; None]) = Ok [Line 0 0 Vertical 3; Span 0 0 Vertical 4 10; Line 1 0 Vertical 3; Span 1 0 Vertical 4 0]
  /\ target c [Some 3; None] (Some [Some 4; None]) None = Ok [Line 0 0 Vertical 3; Span 0 0 Vertical 0 4; Line 1 0 Vertical 3; Span 1 0 Vertical 0 4].
Proof. split; reflexivity. Qed.

(** * C64 *)
(** The panel chosen exists, and for two or more parameters it is a hidden one. *)
Theorem C64_panel : forall (B : Type) size loc, (1 <= size)%nat -> exists r c loc', legend (B := B) size None loc None = Ok (Some loc', Some (r, c)) /\ (r < size)%nat /\ (c < size)%nat /\ ((2 <= size)%nat -> (r < c)%nat).
Proof. exact legend_auto. Qed.
Print Assumptions C64_panel.

Example C64_example : legend (B := R) 7 None None None = Ok (Some "lower left"%string, Some (2, 4)%nat) /\ legend (B := R) 8 None None None = Ok (Some "lower left"%string, Some (1, 4)%nat).
Proof. split; reflexivity. Qed.

(** * C86 *)
(** Empty dictionaries passed to clean, plot or plot_kde, and then again: the second call draws the quantiles and line style of the first ... *)
Theorem C86_reused : forall m c1 c2 d1 d2, is_kde m = true -> oc_m c1 = m -> oc_1 c1 = Some [] -> oc_2 c1 = Some [] -> reaches c1 = true ->
  ou_1 (ocall_run new_session c1) = d1 -> ou_2 (ocall_run new_session c1) = d2 ->
  oc_1 c2 = Some d1 -> oc_2 c2 = Some d2 -> reaches c2 = true -> oc_m c2 = m ->
  exists x y, ou_drawn (ocall_run new_session c2) = Ok (x, if Nat.ltb (oc_size c2) 2 then None else Some y)
    /\ get "quantiles"%string x = Some (oc_q c1) /\ get "quantiles"%string y = Some (oc_q c1) /\ get "ls"%string x = Some (line_style c1) /\ get "ls"%string y = Some (line_style c1).
Proof. exact options_reused. Qed.
Print Assumptions C86_reused.

(** ... and a dictionary passed to one of them makes plot_data or hist fail afterwards. *)
Theorem C86_data : forall c1 c2 d1 d2, is_kde (oc_m c1) = true -> oc_1 c1 = Some d1 -> reaches c1 = true -> ou_1 (ocall_run new_session c1) = d2 ->
  oc_1 c2 = Some d2 -> is_kde (oc_m c2) = false -> exists e, ou_drawn (ocall_run new_session c2) = Err e /\ (reaches c2 = true -> e = TypeError).
Proof. exact options_reused_data. Qed.
Print Assumptions C86_data.

Example C86_example : let c1 := mkO MKde (Some []) (Some []) (VList [1 / 2]) (Some (VStr "--")) (Ok tt) (Ok tt) 3 in
  reaches c1 = true /\ ou_1 (ocall_run new_session c1) = [("quantiles"%string, VList [1 / 2]); ("ls"%string, VStr "--")].
Proof. split; reflexivity. Qed.

(** * C87 *)
(** Without panel and box the location given makes no difference. *)
Theorem C87_loc : forall (B : Type) size loc, legend (B := B) size None loc None = legend (B := B) size None None None.
Proof. exact legend_loc. Qed.
Print Assumptions C87_loc.

(** A box given never reaches the figure: only the location does. *)
Theorem C87_box : forall (B : Type) size index loc (b : B), legend size index loc (Some b) = Ok (loc, None).
Proof. exact legend_box. Qed.
Print Assumptions C87_box.

(** With a panel the location is kept, the anchor is that panel; ... *)
Theorem C87_panel : forall (B : Type) size r c loc, (r < size)%nat -> (c < size)%nat -> legend (B := B) size (Some (Z.of_nat r, Z.of_nat c)) loc None = Ok (loc, Some (r, c)).
Proof. exact legend_panel. Qed.
Print Assumptions C87_panel.

(** ... a panel outside raises IndexError. *)
Theorem C87_outside : forall (B : Type) size i j loc, (i < - Z.of_nat size \/ Z.of_nat size <= i \/ j < - Z.of_nat size \/ Z.of_nat size <= j)%Z ->
  legend (B := B) size (Some (i, j)) loc None = Err IndexError.
Proof. exact legend_outside. Qed.
Print Assumptions C87_outside.

Example C87_example : legend (B := R) 3 None (Some "upper center"%string) None = Ok (Some "lower left"%string, Some (0, 2)%nat)
  /\ legend 3 None (Some "upper center"%string) (Some 1) = legend 3 None (Some "upper center"%string) (Some 2)
  /\ legend (B := R) 3 (Some (-1, 0)%Z) (Some "upper center"%string) None = Ok (Some "upper center"%string, Some (2, 0)%nat).
Proof. repeat split. Qed.

(** * C88 *)
(** Accepted are exactly two letters, the first t or b, the second l or r, in either case, with the meaning expected ... *)
Theorem C88_accepts : forall s o, parse_origin s = Ok o <->
  exists a b, s = String a (String b EmptyString) /\ (if fst o then a = "t" \/ a = "T" else a = "b" \/ a = "B")%char /\ (if snd o then b = "r" \/ b = "R" else b = "l" \/ b = "L")%char.
Proof. exact origin_accepts. Qed.
Print Assumptions C88_accepts.

(** ... everything else raises ValueError. *)
Theorem C88_refuses : forall s, (exists o, parse_origin s = Ok o) \/ parse_origin s = Err ValueError.
Proof. exact origin_refused. Qed.
Print Assumptions C88_refuses.

(** The visible panels are those of the corresponding corner of the figure ... *)
Theorem C88_places : forall size rotate limits c o i j, corner_init size rotate (user_pairs limits) = Ok c -> match limits with None => True | Some l => length l = size end -> (i < size)%nat -> (j < size)%nat ->
  (fst (screen size o i j) < size)%nat /\ (snd (screen size o i j) < size)%nat
  /\ (p_vis (co_panels c i j) = true <-> in_corner size o (fst (screen size o i j)) (snd (screen size o i j))).
Proof. exact origin_places. Qed.
Print Assumptions C88_places.

(** ... each in its own place. *)
Theorem C88_distinct : forall size o i j i' j', (i < size)%nat -> (j < size)%nat -> (i' < size)%nat -> (j' < size)%nat -> screen size o i j = screen size o i' j' -> i = i' /\ j = j'.
Proof. exact origin_distinct. Qed.
Print Assumptions C88_distinct.

Example C88_example : parse_origin "tR" = Ok (true, true) /\ parse_origin "lt" = Err ValueError /\ parse_origin "top" = Err ValueError /\ screen 3 (true, true) 2 0 = (0, 2)%nat /\ in_corner 3 (true, true) 0 2.
Proof. repeat split; cbn; lia. Qed.

(** * C89 *)
(** hist never uses weights, whatever is given or stored, ... *)
Theorem C89_hist : forall st s w r, do_hist st s w = Ok r -> exists d, r = DrawData d WNone.
Proof. exact hist_unweighted. Qed.
Print Assumptions C89_hist.

(** ... although it succeeds with any valid weights. *)
Theorem C89_hist_draws : forall st d w kw, check_weights (length (nth 0 d [])) w = Ok kw -> do_hist st (Some (SrcData d)) w = Ok (DrawData d WNone).
Proof. exact hist_draws. Qed.
Print Assumptions C89_hist_draws.

(** Weights given to the constructor are used by plot, plot_kde and clean but not by plot_data ... *)
Theorem C89_stored : forall d w st kw, store (SrcData d) w = Ok st -> check_weights (length (nth 0 d [])) w = Ok kw ->
  do_plot_data st None WNone = Ok (DrawData d WNone) /\ do_plot_kde st None WNone = Ok (DrawKde (d, kw)) /\ do_plot st None WNone = Ok (DrawKde (d, kw)).
Proof. exact stored_weights. Qed.
Print Assumptions C89_stored.

(** ... even if a weighted KDE was given. *)
Theorem C89_stored_kde : forall d kw st, store (SrcKde d kw) WNone = Ok st ->
  do_plot_data st None WNone = Ok (DrawData d WNone) /\ do_plot_kde st None WNone = Ok (DrawKde (d, kw)) /\ do_plot st None WNone = Ok (DrawKde (d, kw)).
Proof. exact stored_kde_weights. Qed.
Print Assumptions C89_stored_kde.

(** Weights given with the data are used. *)
Theorem C89_given : forall st d w kw, check_weights (length (nth 0 d [])) w = Ok kw ->
  do_plot_data st (Some (SrcData d)) w = Ok (DrawData d w) /\ do_plot_kde st (Some (SrcData d)) w = Ok (DrawKde (d, kw)) /\ do_plot st (Some (SrcData d)) w = Ok (DrawKde (d, kw)).
Proof. exact given_weights. Qed.
Print Assumptions C89_given.

(** The weights of a KDE given to the method itself are used by plot_data too. *)
Theorem C89_kde : forall st d kw, do_plot_data st (Some (SrcKde d (Some kw))) WNone = Ok (DrawData d (WArr (map Fin kw)))
  /\ do_plot_data st (Some (SrcKde d None)) WNone = Ok (DrawData d WNone)
  /\ (forall o, do_plot_kde st (Some (SrcKde d o)) WNone = Ok (DrawKde (d, o)) /\ do_plot st (Some (SrcKde d o)) WNone = Ok (DrawKde (d, o))).
Proof. exact given_kde. Qed.
Print Assumptions C89_kde.

(** Weights beside a KDE raise ValueError ... *)
Theorem C89_both : forall st d kw w, w <> WNone -> store (SrcKde d kw) w = Err ValueError /\ do_plot_data st (Some (SrcKde d kw)) w = Err ValueError
  /\ do_plot_kde st (Some (SrcKde d kw)) w = Err ValueError /\ do_plot st (Some (SrcKde d kw)) w = Err ValueError /\ do_hist st (Some (SrcKde d kw)) w = Err ValueError.
Proof. exact kde_and_weights. Qed.
Print Assumptions C89_both.

(** ... and so does plotting without data. *)
Theorem C89_nothing : forall w, do_plot_data None None w = Err ValueError /\ do_plot_kde None None w = Err ValueError /\ do_plot None None w = Err ValueError /\ do_hist None None w = Err ValueError.
Proof. exact nothing_to_plot. Qed.
Print Assumptions C89_nothing.

Example C89_example : let d := [[1; 2]; [3; 4]] in let w := WArr [Fin 1; Fin 2] in
  check_weights (length (nth 0 d [])) w = Ok (Some [1; 2]) /\ (exists st, store (SrcData d) w = Ok st) /\ do_hist None (Some (SrcData d)) w = Ok (DrawData d WNone).
Proof.
  assert (E : check_weights 2 (WArr [Fin 1; Fin 2]) = Ok (Some [1; 2])).
  { unfold check_weights. cbn. unfold Reqb, Rltb. repeat match goal with |- context [Req_EM_T ?a ?b] => destruct (Req_EM_T a b); [lra|] end.
    repeat match goal with |- context [Rlt_dec ?a ?b] => destruct (Rlt_dec a b); [lra|] end. reflexivity. }
  split; [exact E|]. split; [|apply (hist_draws None [[1; 2]; [3; 4]] _ _ E)]. unfold store, parse_kde_data. cbn [nth length]. rewrite E. cbn. eauto.
Qed.

(** * C90 *)
(** One pair of limits applies to every parameter ... *)
Theorem C90_all : forall size rotate a b, size <> 2%nat -> exists c, corner_init size rotate (Some [LvNum a; LvNum b]) = Ok c /\ aligned size rotate (fun _ => LvPair a b) (co_panels c).
Proof. exact one_pair. Qed.
Print Assumptions C90_all.

(** ... except for two parameters: then its two numbers become the lower ends of the two axes. *)
Theorem C90_two : forall rotate a b, exists c, corner_init 2 rotate (Some [LvNum a; LvNum b]) = Ok c
  /\ p_x (co_panels c 0%nat 0%nat) = (Some a, None) /\ p_x (co_panels c 1%nat 0%nat) = (Some a, None) /\ p_y (co_panels c 1%nat 0%nat) = (Some b, None).
Proof. exact one_pair_two. Qed.
Print Assumptions C90_two.

(** Later plots asked to extend such limits raise TypeError. *)
Theorem C90_extend : forall size rotate a b c vals, (1 <= size)%nat -> corner_init size rotate (Some [LvNum a; LvNum b]) = Ok c ->
  length vals = size -> (forall v, In v vals -> v <> []) -> plot_limits c vals (Some true) = Err TypeError.
Proof. exact one_pair_extend. Qed.
Print Assumptions C90_extend.

(** Another number of limits raises ValueError. *)
Theorem C90_number : forall size rotate l, length l <> size -> length l <> 2%nat -> corner_init size rotate (Some l) = Err ValueError.
Proof. exact wrong_number. Qed.
Print Assumptions C90_number.

Example C90_example : exists c, corner_init 3 true (Some [LvNum 0; LvNum 1]) = Ok c /\ p_x (co_panels c 2%nat 1%nat) = (Some 0, Some 1) /\ p_y (co_panels c 2%nat 2%nat) = (Some 0, Some 1)
  /\ plot_limits c [[1]; [2]; [3]] (Some true) = Err TypeError.
Proof.
  destruct (one_pair 3 true 0 1 ltac:(lia)) as (c & E & A). exists c. split; [exact E|]. split; [apply (A 2%nat 1%nat); lia|]. split.
  - pose proof (A 2%nat 2%nat ltac:(lia) ltac:(lia)) as (_ & _ & H). apply (H eq_refl).
  - apply (one_pair_extend 3 true 0 1 c [[1]; [2]; [3]] ltac:(lia) E eq_refl). intros v [<-|[<-|[<-|[]]]]; discriminate.
Qed.

(** * C91 *)
(** After any history with limits every panel shows the stored limits of its parameters. *)
Theorem C91_aligned : forall sorter user size rotate c0 ks c, match user with None => True | Some l => length l = size end ->
  corner_init size rotate (user_pairs user) = Ok c0 -> corner_plots sorter c0 ks = Ok c -> (user_given user = true \/ exists k, In k ks /\ effective false k = true) ->
  aligned size rotate (fun i => nth i (co_limits c) LvNone) (co_panels c).
Proof. exact limits_shown. Qed.
Print Assumptions C91_aligned.

Example C91_example : exists c0, corner_init 2 true (user_pairs (Some [(0, 1); (2, 3)])) = Ok c0 /\ user_given (Some [(0, 1); (2, 3)]) = true
  /\ p_x (co_panels c0 1%nat 0%nat) = (Some 0, Some 1) /\ p_y (co_panels c0 1%nat 0%nat) = (Some 2, Some 3) /\ p_y (co_panels c0 1%nat 1%nat) = (Some 2, Some 3).
Proof. eexists. split; [reflexivity|]. repeat split. Qed.


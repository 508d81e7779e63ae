(** Defaults and options of the methods of Corner. *)
From Coq Require Import String.
From Verif Require Import Base ModelUtils ModelGrid ModelCorner ModelOptions SpecUtils SpecCorner ProofOptions.
Open Scope R_scope.
Notation length := List.length.

Lemma get_app k d d' : get k (d ++ d') = match get k d with Some v => Some v | None => get k d' end.
Proof. induction d as [|[a b] d IH]; [reflexivity|]. cbn [get app]. destruct (String.eqb k a); [reflexivity|exact IH]. Qed.
Lemma get_setdefault k d a v : get k (setdefault d a v) = match get k d with Some u => Some u | None => if String.eqb k a then Some v else None end.
Proof.
  unfold setdefault. destruct (get a d) as [u|] eqn:E.
  - destruct (get k d) eqn:Ek; [reflexivity|]. destruct (String.eqb_spec k a) as [->|]; [congruence|reflexivity].
  - rewrite get_app. reflexivity.
Qed.
Lemma get_setdefaults k kv : forall d, get k (setdefaults kv d) = match get k d with Some u => Some u | None => get k kv end.
Proof.
  induction kv as [|[a v] kv IH]; intros d; [cbn; destruct (get k d); reflexivity|]. unfold setdefaults in *. cbn [fold_left fst snd]. rewrite IH, get_setdefault.
  destruct (get k d); [reflexivity|]. cbn [get]. destruct (String.eqb k a); reflexivity.
Qed.
(** What reaches a panel: the option of the dictionary, else of the method, else of the panel. *)
Lemma drawn_parts s c x oy : reaches c = true -> ou_drawn (ocall_run s c) = Ok (x, oy) ->
  let m := oc_m c in let d1 := match oc_1 c with Some d => d | None => fst (s m) end in let d2 := match oc_2 c with Some d => d | None => snd (s m) end in
  let extra := if is_kde m then kde_opts (oc_q c) (oc_ls c) else [("quantiles"%string, oc_q c)] in
  let pick k d w p := match get k d with Some v => Some v | None => match get k w with Some v => Some v | None => match get k extra with Some v => Some v | None => get k p end end end in
  (forall k, get k x = pick k d1 (wrapper_1d m) (panel_1d (is_kde m)))
  /\ (oy = None <-> (oc_size c < 2)%nat) /\ (forall y, oy = Some y -> forall k, get k y = pick k d2 (wrapper_2d m) (panel_2d (is_kde m))).
Proof.
  intros ER HD. cbv zeta. destruct (run_parts s c) as (_ & HR & _). destruct (HR ER) as (E1 & E2 & D). rewrite HD in D. clear HR HD.
  unfold draw_1d, draw_2d in D. destruct (has_any _ (ou_1 _)); [discriminate D|]. cbn [bind] in D.
  assert (P : forall d w p e k, get k (setdefaults p (if is_kde (oc_m c) then setdefaults (kde_opts (oc_q c) (oc_ls c)) (setdefaults w d) else (setdefaults w d ++ [("quantiles"%string, e)])%list))
    = match get k d with Some v => Some v | None => match get k w with Some v => Some v | None => match get k (if is_kde (oc_m c) then kde_opts (oc_q c) (oc_ls c) else [("quantiles"%string, e)]) with Some v => Some v | None => get k p end end end).
  { intros d w p e k. rewrite get_setdefaults. destruct (is_kde (oc_m c)); [rewrite !get_setdefaults|rewrite get_app, get_setdefaults]; destruct (get k d); try reflexivity; destruct (get k w); reflexivity. }
  assert (Q1 : forall k, get k (setdefaults (panel_1d (is_kde (oc_m c))) (if is_kde (oc_m c) then ou_1 (ocall_run s c) else (ou_1 (ocall_run s c) ++ [("quantiles"%string, oc_q c)])%list)) =
    match get k (match oc_1 c with Some d => d | None => fst (s (oc_m c)) end) with Some v => Some v | None => match get k (wrapper_1d (oc_m c)) with Some v => Some v | None =>
      match get k (if is_kde (oc_m c) then kde_opts (oc_q c) (oc_ls c) else [("quantiles"%string, oc_q c)]) with Some v => Some v | None => get k (panel_1d (is_kde (oc_m c))) end end end).
  { intros k. rewrite <- P, E1. destruct (is_kde (oc_m c)); reflexivity. }
  assert (Q2 : forall k, get k (setdefaults (panel_2d (is_kde (oc_m c))) (if is_kde (oc_m c) then ou_2 (ocall_run s c) else (ou_2 (ocall_run s c) ++ [("quantiles"%string, oc_q c)])%list)) =
    match get k (match oc_2 c with Some d => d | None => snd (s (oc_m c)) end) with Some v => Some v | None => match get k (wrapper_2d (oc_m c)) with Some v => Some v | None =>
      match get k (if is_kde (oc_m c) then kde_opts (oc_q c) (oc_ls c) else [("quantiles"%string, oc_q c)]) with Some v => Some v | None => get k (panel_2d (is_kde (oc_m c))) end end end).
  { intros k. rewrite <- P, E2. destruct (is_kde (oc_m c)); reflexivity. }
  destruct (Nat.ltb_spec (oc_size c) 2) as [L|L].
  - injection D as -> ->. split; [exact Q1|]. split; [split; [intros _; exact L|reflexivity]|discriminate].
  - destruct (orb _ _); [discriminate D|]. cbn [bind] in D. injection D as -> ->. split; [exact Q1|]. split; [split; [discriminate|lia]|]. intros y Ey. injection Ey as <-. exact Q2.
Qed.
Ltac each_switch := repeat match goal with
  | H : In _ (combine _ _) |- _ => cbn [combine] in H
  | H : In _ (_ :: _) |- _ => destruct H as [H|H]; [injection H as <- <-|]
  | H : In _ [] |- _ => destruct H
  end.
(** Dictionaries of the caller: every option in them is used; what they leave open is drawn as the method says. *)
Lemma options_win : forall s c d1 d2 x oy, reaches c = true -> oc_1 c = Some d1 -> oc_2 c = Some d2 -> ou_drawn (ocall_run s c) = Ok (x, oy) ->
  (forall k v, get k d1 = Some v -> get k x = Some v)
  /\ (forall k b, In (k, b) (shows_1d (oc_m c)) -> get k d1 = None -> get k x = Some (VBool b))
  /\ forall y, oy = Some y -> (forall k v, get k d2 = Some v -> get k y = Some v) /\ (forall k b, In (k, b) (shows_2d (oc_m c)) -> get k d2 = None -> get k y = Some (VBool b)).
Proof.
  intros s c d1 d2 x oy ER H1 H2 HD. destruct (drawn_parts s c x oy ER HD) as (A & _ & B). rewrite H1 in A. rewrite H2 in B. split; [|split].
  - intros k v Hk. rewrite A, Hk. reflexivity.
  - intros k b Hb Hk. rewrite A, Hk. unfold shows_1d in Hb. destruct (oc_m c); each_switch; reflexivity.
  - intros y Hy. specialize (B y Hy). split; [intros k v Hk; rewrite B, Hk; reflexivity|]. intros k b Hb Hk. rewrite B, Hk. unfold shows_2d in Hb. destruct (oc_m c); each_switch; reflexivity.
Qed.
(** No dictionaries: the same after every history. *)
Lemma options_shown : forall cs c, reaches c = true -> oc_1 c = None -> oc_2 c = None ->
  exists x y, ou_drawn (ocall_run (history new_session cs) c) = Ok (x, if Nat.ltb (oc_size c) 2 then None else Some y)
  /\ (forall k b, In (k, b) (shows_1d (oc_m c)) -> get k x = Some (VBool b)) /\ (forall k b, In (k, b) (shows_2d (oc_m c)) -> get k y = Some (VBool b)).
Proof.
  intros cs c ER H1 H2. set (c' := mkO (oc_m c) None None (oc_q c) (oc_ls c) (oc_parse c) (oc_check c) 2).
  assert (ER' : reaches c' = true) by exact ER.
  destruct (options_switches cs c ER H1 H2) as (x & y & _ & _ & D & _). destruct (options_switches cs c' ER' eq_refl eq_refl) as (x1 & y1 & x0 & y0 & D1 & D0 & G).
  destruct (drawn_parts new_session c' x0 (Some y0) ER' D0) as (A & _ & B). specialize (B y0 eq_refl). cbn [c' oc_1 oc_2 new_session fst snd oc_m get] in A, B.
  exists x, y1. destruct (run_parts (history new_session cs) c) as (_ & HR & _). destruct (HR ER) as (E1 & E2 & Dc). destruct (run_parts (history new_session cs) c') as (_ & HR' & _). destruct (HR' ER') as (E1' & E2' & Dc').
  rewrite H1 in E1. rewrite H2 in E2. cbn [c' oc_1 oc_2 oc_m oc_q oc_ls] in E1', E2'. rewrite <- E1 in E1'. rewrite <- E2 in E2'. rewrite D1, E1', E2' in Dc'. cbn [c' oc_m oc_q oc_size Nat.ltb Nat.leb] in Dc'.
  destruct (draw_1d (is_kde (oc_m c)) (oc_q c) (ou_1 (ocall_run (history new_session cs) c))) as [x2|]; [|discriminate Dc']. cbn [bind] in *.
  destruct (draw_2d (is_kde (oc_m c)) (oc_q c) (ou_2 (ocall_run (history new_session cs) c))) as [y2|]; [|discriminate Dc']. cbn [bind] in *. injection Dc' as -> ->.
  assert (EX : x2 = x) by (rewrite D in Dc; destruct (Nat.ltb (oc_size c) 2); injection Dc as Dc; congruence). subst x2. split; [rewrite Dc; destruct (Nat.ltb _ _); reflexivity|].
  assert (N : forall k b, In (k, b) (shows_1d (oc_m c)) \/ In (k, b) (shows_2d (oc_m c)) -> k <> "quantiles"%string /\ k <> "ls"%string).
  { intros k b [Hb|Hb]; [unfold shows_1d in Hb|unfold shows_2d in Hb]; destruct (oc_m c); each_switch; split; discriminate. }
  split; intros k b Hb; [destruct (N k b (or_introl Hb)) as [N1 N2]|destruct (N k b (or_intror Hb)) as [N1 N2]]; destruct (G k N1 N2) as [G1 G2].
  - rewrite G1, A. unfold shows_1d in Hb. destruct (oc_m c); each_switch; reflexivity.
  - rewrite G2, B. unfold shows_2d in Hb. destruct (oc_m c); each_switch; reflexivity.
Qed.
(** The line style is an option of clean and plot_kde only. *)
Lemma options_ls : forall s c v, oc_ls c = Some v -> oc_parse c = Ok tt -> oc_m c = MHist \/ oc_m c = MPlot \/ oc_m c = MData -> ou_drawn (ocall_run s c) = Err TypeError.
Proof. intros s c v Hl Hp Hm. unfold ocall_run. rewrite Hl, Hp. destruct Hm as [-> |[-> | ->]]; reflexivity. Qed.

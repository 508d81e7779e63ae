(** Proofs about the option dictionaries (C59). *)
From Coq Require Import String.
From Verif Require Import Base ModelUtils ModelGrid ModelCorner ModelOptions SpecUtils SpecCorner.
Open Scope R_scope.
Notation length := List.length.

Definition inv1 (s : session) (m : method) (f : option ocall) : Prop :=
  match f with
  | Some c0 => fst (s m) = wrapper_1d m ++ (if is_kde m then kde_opts (oc_q c0) (oc_ls c0) else [])
  | None => fst (s m) = [] \/ fst (s m) = wrapper_1d m
  end.
Definition inv2 (s : session) (m : method) (f : option ocall) : Prop :=
  match f with
  | Some c0 => snd (s m) = wrapper_2d m ++ (if is_kde m then kde_opts (oc_q c0) (oc_ls c0) else [])
  | None => snd (s m) = [] \/ snd (s m) = wrapper_2d m
  end.
Definition inv (s : session) (cs : list ocall) : Prop := forall m, inv1 s m (find (uses_default1 m) cs) /\ inv2 s m (find (uses_default2 m) cs).

Lemma method_eqb_refl m : method_eqb m m = true.
Proof. destruct m; reflexivity. Qed.
Lemma method_eqb_eq a b : method_eqb a b = true -> a = b.
Proof. destruct a, b; intros H; try discriminate H; reflexivity. Qed.

Lemma wrap1 m d : d = [] \/ d = wrapper_1d m -> setdefaults (wrapper_1d m) d = wrapper_1d m.
Proof. destruct m; intros [-> | ->]; reflexivity. Qed.
Lemma wrap2 m d : d = [] \/ d = wrapper_2d m -> setdefaults (wrapper_2d m) d = wrapper_2d m.
Proof. destruct m; intros [-> | ->]; reflexivity. Qed.
Lemma wrapk1 m q ls : setdefaults (wrapper_1d m) (wrapper_1d m ++ (if is_kde m then kde_opts q ls else [])) = wrapper_1d m ++ (if is_kde m then kde_opts q ls else []).
Proof. destruct m; reflexivity. Qed.
Lemma wrapk2 m q ls : setdefaults (wrapper_2d m) (wrapper_2d m ++ (if is_kde m then kde_opts q ls else [])) = wrapper_2d m ++ (if is_kde m then kde_opts q ls else []).
Proof. destruct m; reflexivity. Qed.
Lemma kset1 m q ls : is_kde m = true -> setdefaults (kde_opts q ls) (wrapper_1d m) = wrapper_1d m ++ kde_opts q ls.
Proof. destruct m; intros H; try discriminate H; reflexivity. Qed.
Lemma kset2 m q ls : is_kde m = true -> setdefaults (kde_opts q ls) (wrapper_2d m) = wrapper_2d m ++ kde_opts q ls.
Proof. destruct m; intros H; try discriminate H; reflexivity. Qed.
Lemma kkeep1 m q ls q' ls' : is_kde m = true -> setdefaults (kde_opts q' ls') (wrapper_1d m ++ kde_opts q ls) = wrapper_1d m ++ kde_opts q ls.
Proof. destruct m; intros H; try discriminate H; reflexivity. Qed.
Lemma kkeep2 m q ls q' ls' : is_kde m = true -> setdefaults (kde_opts q' ls') (wrapper_2d m ++ kde_opts q ls) = wrapper_2d m ++ kde_opts q ls.
Proof. destruct m; intros H; try discriminate H; reflexivity. Qed.

(** The dictionary in use after a call, given what it was before. *)
Lemma run_parts s c : let m := oc_m c in let d1 := match oc_1 c with Some d => d | None => fst (s m) end in let d2 := match oc_2 c with Some d => d | None => snd (s m) end in
  ou_sess (ocall_run s c) = put s m (oc_1 c) (oc_2 c) (ou_1 (ocall_run s c), ou_2 (ocall_run s c))
  /\ (reaches c = true ->
        ou_1 (ocall_run s c) = (if is_kde m then setdefaults (kde_opts (oc_q c) (oc_ls c)) (setdefaults (wrapper_1d m) d1) else setdefaults (wrapper_1d m) d1)
        /\ ou_2 (ocall_run s c) = (if is_kde m then setdefaults (kde_opts (oc_q c) (oc_ls c)) (setdefaults (wrapper_2d m) d2) else setdefaults (wrapper_2d m) d2)
        /\ ou_drawn (ocall_run s c) = (do x <- draw_1d (is_kde m) (oc_q c) (ou_1 (ocall_run s c)) ;;
             if Nat.ltb (oc_size c) 2 then Ok (x, None) else do y <- draw_2d (is_kde m) (oc_q c) (ou_2 (ocall_run s c)) ;; Ok (x, Some y)))
  /\ (reaches c = false ->
        (ou_1 (ocall_run s c) = d1 \/ ou_1 (ocall_run s c) = setdefaults (wrapper_1d m) d1)
        /\ (ou_2 (ocall_run s c) = d2 \/ ou_2 (ocall_run s c) = setdefaults (wrapper_2d m) d2)
        /\ exists e, forall s', ou_drawn (ocall_run s' c) = Err e).
Proof.
  cbv zeta. unfold ocall_run, reaches. destruct c as [m a1 a2 q ls pa ch size]. cbn [oc_m oc_1 oc_2 oc_q oc_ls oc_parse oc_check oc_size].
  destruct ls as [v|]; destruct m; cbn [ls_known negb andb is_kde];
    (destruct pa as [u|e]; [destruct ch as [u'|e']|]); cbn [ou_sess ou_1 ou_2 ou_drawn];
    (split; [reflexivity|]); (split; [intros HR; try discriminate HR; try (split; [reflexivity|split; reflexivity])|intros HR; try discriminate HR;
      try (split; [first [left; reflexivity|right; reflexivity]|split; [first [left; reflexivity|right; reflexivity]|eexists; intros; reflexivity]])]).
Qed.

Lemma find_app {A} (f : A -> bool) l x : find f (l ++ [x]) = match find f l with Some y => Some y | None => if f x then Some x else None end.
Proof. induction l as [|a l IH]; cbn; [reflexivity|]. destruct (f a); [reflexivity|exact IH]. Qed.

Lemma inv_step s cs c : inv s cs -> inv (ou_sess (ocall_run s c)) (cs ++ [c]).
Proof.
  intros H m. rewrite !find_app. destruct (run_parts s c) as (ES & HR & HN). rewrite ES. unfold inv1, inv2, put.
  destruct (H m) as [H1 H2]. unfold inv1 in H1. unfold inv2 in H2. unfold uses_default1 at 2. unfold uses_default2 at 2.
  destruct (method_eqb m (oc_m c)) eqn:EM.
  - apply method_eqb_eq in EM. subst m. rewrite method_eqb_refl. cbn [andb fst snd]. split.
    + destruct (oc_1 c) as [g|] eqn:E1; [rewrite andb_false_r; destruct (find (uses_default1 (oc_m c)) cs); exact H1|]. rewrite andb_true_r.
      destruct (reaches c) eqn:ER.
      * destruct (HR eq_refl) as (E & _ & _). rewrite E. destruct (find (uses_default1 (oc_m c)) cs) as [c0|].
        -- rewrite H1, wrapk1. destruct (is_kde (oc_m c)) eqn:K; [rewrite kkeep1 by exact K; reflexivity|reflexivity].
        -- rewrite (wrap1 _ _ H1). destruct (is_kde (oc_m c)) eqn:K; [apply kset1, K|rewrite app_nil_r; reflexivity].
      * destruct (HN eq_refl) as (E & _ & _). destruct (find (uses_default1 (oc_m c)) cs) as [c0|].
        -- destruct E as [E|E]; rewrite E, H1; [reflexivity|]. apply wrapk1.
        -- destruct E as [E|E]; rewrite E; [exact H1|]. right. apply wrap1, H1.
    + destruct (oc_2 c) as [g|] eqn:E1; [rewrite andb_false_r; destruct (find (uses_default2 (oc_m c)) cs); exact H2|]. rewrite andb_true_r.
      destruct (reaches c) eqn:ER.
      * destruct (HR eq_refl) as (_ & E & _). rewrite E. destruct (find (uses_default2 (oc_m c)) cs) as [c0|].
        -- rewrite H2, wrapk2. destruct (is_kde (oc_m c)) eqn:K; [rewrite kkeep2 by exact K; reflexivity|reflexivity].
        -- rewrite (wrap2 _ _ H2). destruct (is_kde (oc_m c)) eqn:K; [apply kset2, K|rewrite app_nil_r; reflexivity].
      * destruct (HN eq_refl) as (_ & E & _). destruct (find (uses_default2 (oc_m c)) cs) as [c0|].
        -- destruct E as [E|E]; rewrite E, H2; [reflexivity|]. apply wrapk2.
        -- destruct E as [E|E]; rewrite E; [exact H2|]. right. apply wrap2, H2.
  - assert (EM' : method_eqb (oc_m c) m = false) by (destruct m, (oc_m c); try reflexivity; discriminate EM). rewrite EM'. cbn [andb].
    split; [destruct (find (uses_default1 m) cs); exact H1|destruct (find (uses_default2 m) cs); exact H2].
Qed.
Lemma history_snoc s cs c : history s (cs ++ [c]) = ou_sess (ocall_run (history s cs) c).
Proof. revert s. induction cs as [|a cs IH]; intros s; cbn; [reflexivity|]. apply IH. Qed.
Lemma inv_history cs : inv (history new_session cs) cs.
Proof.
  induction cs as [|c cs IH] using rev_ind; [intros m; split; left; reflexivity|]. rewrite history_snoc. apply inv_step, IH.
Qed.

(** The options used by a call reaching the drawing. *)
Lemma used1 cs c : reaches c = true -> oc_1 c = None ->
  exists c0, find (uses_default1 (oc_m c)) (cs ++ [c]) = Some c0
    /\ ou_1 (ocall_run (history new_session cs) c) = wrapper_1d (oc_m c) ++ (if is_kde (oc_m c) then kde_opts (oc_q c0) (oc_ls c0) else []).
Proof.
  intros HR H1. pose proof (inv_history (cs ++ [c]) (oc_m c)) as [I _]. rewrite history_snoc in I.
  destruct (run_parts (history new_session cs) c) as (ES & _ & _). unfold inv1 in I. rewrite find_app in *.
  assert (U : uses_default1 (oc_m c) c = true) by (unfold uses_default1; rewrite method_eqb_refl, HR, H1; reflexivity). rewrite U in *.
  rewrite ES in I. unfold put in I. rewrite method_eqb_refl, H1 in I. cbn [fst] in I.
  destruct (find (uses_default1 (oc_m c)) cs) as [c0|]; [exists c0|exists c]; (split; [reflexivity|exact I]).
Qed.
Lemma used2 cs c : reaches c = true -> oc_2 c = None ->
  exists c0, find (uses_default2 (oc_m c)) (cs ++ [c]) = Some c0
    /\ ou_2 (ocall_run (history new_session cs) c) = wrapper_2d (oc_m c) ++ (if is_kde (oc_m c) then kde_opts (oc_q c0) (oc_ls c0) else []).
Proof.
  intros HR H1. pose proof (inv_history (cs ++ [c]) (oc_m c)) as [_ I]. rewrite history_snoc in I.
  destruct (run_parts (history new_session cs) c) as (ES & _ & _). unfold inv2 in I. rewrite find_app in *.
  assert (U : uses_default2 (oc_m c) c = true) by (unfold uses_default2; rewrite method_eqb_refl, HR, H1; reflexivity). rewrite U in *.
  rewrite ES in I. unfold put in I. rewrite method_eqb_refl, H1 in I. cbn [snd] in I.
  destruct (find (uses_default2 (oc_m c)) cs) as [c0|]; [exists c0|exists c]; (split; [reflexivity|exact I]).
Qed.

(** Calls with their own dictionaries are not influenced by earlier calls. *)
Theorem options_given cs c d1 d2 : oc_1 c = Some d1 -> oc_2 c = Some d2 ->
  ou_drawn (ocall_run (history new_session cs) c) = ou_drawn (ocall_run new_session c).
Proof. intros H1 H2. unfold ocall_run. rewrite H1, H2. destruct (_ && _)%bool; [reflexivity|]. destruct (oc_parse c); [|reflexivity]. destruct (_ && _)%bool; [reflexivity|]. destruct (oc_check c); reflexivity. Qed.

(** Nor are hist and plot_data. *)
Theorem options_data cs c : is_kde (oc_m c) = false -> ou_drawn (ocall_run (history new_session cs) c) = ou_drawn (ocall_run new_session c).
Proof.
  intros K. destruct (reaches c) eqn:ER.
  - destruct (run_parts (history new_session cs) c) as (_ & HR & _). destruct (run_parts new_session c) as (_ & HR' & _).
    destruct (HR ER) as (A1 & A2 & D). destruct (HR' ER) as (B1 & B2 & D'). rewrite D, D'.
    assert (E1 : ou_1 (ocall_run (history new_session cs) c) = ou_1 (ocall_run new_session c)).
    { rewrite A1, B1, K. destruct (oc_1 c) eqn:E; [reflexivity|]. destruct (used1 cs c ER E) as (c0 & _ & X). rewrite A1, K in X. rewrite X.
      destruct (oc_m c); try discriminate K; reflexivity. }
    assert (E2 : ou_2 (ocall_run (history new_session cs) c) = ou_2 (ocall_run new_session c)).
    { rewrite A2, B2, K. destruct (oc_2 c) eqn:E; [reflexivity|]. destruct (used2 cs c ER E) as (c0 & _ & X). rewrite A2, K in X. rewrite X.
      destruct (oc_m c); try discriminate K; reflexivity. }
    rewrite E1, E2. reflexivity.
  - destruct (run_parts (history new_session cs) c) as (_ & _ & HN). destruct (HN ER) as (_ & _ & e & He). rewrite !He. reflexivity.
Qed.

(** The other methods with default dictionaries: quantiles and line style are those of the first such call. *)
Lemma find_snoc_some {A} (f : A -> bool) l x : f x = true -> exists y, find f (l ++ [x]) = Some y /\ f y = true.
Proof. intros H. rewrite find_app. destruct (find f l) eqn:E; [exists a; split; [reflexivity|apply (find_some _ _ E)]|]. rewrite H. exists x. auto. Qed.
Lemma draw_default1 m q q0 ls0 : is_kde m = true ->
  exists x, draw_1d true q (wrapper_1d m ++ kde_opts q0 ls0) = Ok x /\ get "quantiles"%string x = Some q0 /\ get "ls"%string x = Some (match ls0 with Some v => v | None => VStr "-"%string end)
    /\ forall k, k <> "quantiles"%string -> k <> "ls"%string -> get k x = get k (setdefaults (panel_1d true) (wrapper_1d m)).
Proof.
  intros K. destruct m; try discriminate K; (eexists; split; [reflexivity|]; split; [reflexivity|]; split; [reflexivity|]); intros k H1 H2; apply String.eqb_neq in H1, H2; cbn; rewrite H1, H2; reflexivity.
Qed.
Lemma draw_default2 m q q0 ls0 : is_kde m = true ->
  exists x, draw_2d true q (wrapper_2d m ++ kde_opts q0 ls0) = Ok x /\ get "quantiles"%string x = Some q0 /\ get "ls"%string x = Some (match ls0 with Some v => v | None => VStr "-"%string end)
    /\ forall k, k <> "quantiles"%string -> k <> "ls"%string -> get k x = get k (setdefaults (panel_2d true) (wrapper_2d m)).
Proof.
  intros K. destruct m; try discriminate K; (eexists; split; [reflexivity|]; split; [reflexivity|]; split; [reflexivity|]); intros k H1 H2; apply String.eqb_neq in H1, H2; cbn; rewrite H1, H2; reflexivity.
Qed.
Theorem options_default cs c : is_kde (oc_m c) = true -> reaches c = true -> oc_1 c = None -> oc_2 c = None ->
  exists x y c1 c2, find (uses_default1 (oc_m c)) (cs ++ [c]) = Some c1 /\ find (uses_default2 (oc_m c)) (cs ++ [c]) = Some c2
    /\ ou_drawn (ocall_run (history new_session cs) c) = Ok (x, if Nat.ltb (oc_size c) 2 then None else Some y)
    /\ get "quantiles"%string x = Some (oc_q c1) /\ get "ls"%string x = Some (line_style c1)
    /\ get "quantiles"%string y = Some (oc_q c2) /\ get "ls"%string y = Some (line_style c2).
Proof.
  intros K ER H1 H2. destruct (run_parts (history new_session cs) c) as (_ & HR & _). destruct (HR ER) as (_ & _ & D).
  destruct (used1 cs c ER H1) as (c1 & F1 & E1). destruct (used2 cs c ER H2) as (c2 & F2 & E2). rewrite K in *.
  destruct (draw_default1 (oc_m c) (oc_q c) (oc_q c1) (oc_ls c1) K) as (x & X1 & X2 & X3 & _).
  destruct (draw_default2 (oc_m c) (oc_q c) (oc_q c2) (oc_ls c2) K) as (y & Y1 & Y2 & Y3 & _).
  exists x, y, c1, c2. split; [exact F1|]. split; [exact F2|]. split.
  - rewrite D, E1, E2, X1, Y1. cbn [bind]. destruct (Nat.ltb _ _); reflexivity.
  - auto.
Qed.

(** All other options do not depend on earlier calls. *)
Theorem options_switches cs c : reaches c = true -> oc_1 c = None -> oc_2 c = None ->
  exists x y x' y', ou_drawn (ocall_run (history new_session cs) c) = Ok (x, if Nat.ltb (oc_size c) 2 then None else Some y)
    /\ ou_drawn (ocall_run new_session c) = Ok (x', if Nat.ltb (oc_size c) 2 then None else Some y')
    /\ forall k, k <> "quantiles"%string -> k <> "ls"%string -> get k x = get k x' /\ get k y = get k y'.
Proof.
  intros ER H1 H2. destruct (is_kde (oc_m c)) eqn:K.
  - assert (G : forall cs, exists x y, ou_drawn (ocall_run (history new_session cs) c) = Ok (x, if Nat.ltb (oc_size c) 2 then None else Some y)
      /\ forall k, k <> "quantiles"%string -> k <> "ls"%string -> get k x = get k (setdefaults (panel_1d true) (wrapper_1d (oc_m c))) /\ get k y = get k (setdefaults (panel_2d true) (wrapper_2d (oc_m c)))).
    { clear cs. intros cs. destruct (run_parts (history new_session cs) c) as (_ & HR & _). destruct (HR ER) as (_ & _ & D).
      destruct (used1 cs c ER H1) as (c1 & F1 & E1). destruct (used2 cs c ER H2) as (c2 & F2 & E2). rewrite K in *.
      destruct (draw_default1 (oc_m c) (oc_q c) (oc_q c1) (oc_ls c1) K) as (x & X1 & _ & _ & X4).
      destruct (draw_default2 (oc_m c) (oc_q c) (oc_q c2) (oc_ls c2) K) as (y & Y1 & _ & _ & Y4).
      exists x, y. split; [rewrite D, E1, E2, X1, Y1; cbn [bind]; destruct (Nat.ltb _ _); reflexivity|]. auto. }
    destruct (G cs) as (x & y & D & E). destruct (G []) as (x' & y' & D' & E'). exists x, y, x', y'. split; [exact D|]. split; [exact D'|].
    intros k A B. destruct (E k A B) as [P Q], (E' k A B) as [P' Q']. rewrite P, P', Q, Q'. auto.
  - rewrite (options_data cs c K). destruct (run_parts new_session c) as (_ & HR & _). destruct (HR ER) as (A1 & A2 & D). rewrite K in *. rewrite H1 in A1. rewrite H2 in A2.
    rewrite D, A1, A2. destruct (oc_m c); try discriminate K; cbn [new_session fst snd].
    + destruct (draw_1d false (oc_q c) (setdefaults (wrapper_1d MHist) [])) as [x|] eqn:X; [|discriminate X]. destruct (draw_2d false (oc_q c) (setdefaults (wrapper_2d MHist) [])) as [y|] eqn:Y; [|discriminate Y].
      exists x, y, x, y. cbn [bind]. split; [destruct (Nat.ltb _ _); reflexivity|]. split; [destruct (Nat.ltb _ _); reflexivity|]. auto.
    + destruct (draw_1d false (oc_q c) (setdefaults (wrapper_1d MData) [])) as [x|] eqn:X; [|discriminate X]. destruct (draw_2d false (oc_q c) (setdefaults (wrapper_2d MData) [])) as [y|] eqn:Y; [|discriminate Y].
      exists x, y, x, y. cbn [bind]. split; [destruct (Nat.ltb _ _); reflexivity|]. split; [destruct (Nat.ltb _ _); reflexivity|]. auto.
Qed.

(** So quantiles given explicitly are ignored in the second call. *)
Theorem options_refuted : exists c1 c2 x y x' y', oc_m c1 = MClean /\ oc_m c2 = MClean /\ oc_1 c2 = None /\ oc_2 c2 = None
  /\ oc_q c2 = VList [9 / 10]
  /\ ou_drawn (ocall_run (history new_session [c1]) c2) = Ok (x, Some y) /\ get "quantiles"%string x = Some (VList [1 / 2]) /\ get "quantiles"%string y = Some (VList [1 / 2])
  /\ ou_drawn (ocall_run new_session c2) = Ok (x', Some y') /\ get "quantiles"%string x' = Some (VList [9 / 10]) /\ get "quantiles"%string y' = Some (VList [9 / 10]).
Proof.
  exists (mkO MClean None None (VList [1 / 2]) None (Ok tt) (Ok tt) 3), (mkO MClean None None (VList [9 / 10]) None (Ok tt) (Ok tt) 3).
  do 4 eexists. repeat (split; [reflexivity|]). reflexivity.
Qed.

Lemma get_app_none k d d' : get k d = None -> get k (d ++ d') = get k d'.
Proof. induction d as [|[a b] d IH]; [reflexivity|]. cbn [get app]. destruct (String.eqb k a); [discriminate|exact IH]. Qed.
Lemma get_self d k v : get k (setdefault d k v) <> None.
Proof. unfold setdefault. destruct (get k d) eqn:E; [rewrite E; discriminate|]. rewrite (get_app_none _ _ _ E). cbn [get]. rewrite String.eqb_refl. discriminate. Qed.

(** Dictionaries given by the caller are modified: used again they carry the options of the first call along ... *)
Theorem options_reused m c1 c2 d1 d2 : is_kde m = true -> oc_m c1 = m -> oc_1 c1 = Some [] -> oc_2 c1 = Some [] -> reaches c1 = true ->
  ou_1 (ocall_run new_session c1) = d1 -> ou_2 (ocall_run new_session c1) = d2 ->
  oc_1 c2 = Some d1 -> oc_2 c2 = Some d2 -> reaches c2 = true -> oc_m c2 = m ->
  exists x y, ou_drawn (ocall_run new_session c2) = Ok (x, if Nat.ltb (oc_size c2) 2 then None else Some y)
    /\ get "quantiles"%string x = Some (oc_q c1) /\ get "quantiles"%string y = Some (oc_q c1) /\ get "ls"%string x = Some (line_style c1) /\ get "ls"%string y = Some (line_style c1).
Proof.
  intros K M1 A1 A2 R1 D1 D2 B1 B2 R2 M2. destruct (run_parts new_session c1) as (_ & HR & _). destruct (HR R1) as (E1 & E2 & _). rewrite A1, M1, K in E1. rewrite A2, M1, K in E2.
  rewrite (wrap1 m [] (or_introl eq_refl)), kset1 in E1 by exact K. rewrite (wrap2 m [] (or_introl eq_refl)), kset2 in E2 by exact K. rewrite D1 in E1. rewrite D2 in E2. subst d1 d2.
  destruct (run_parts new_session c2) as (_ & HR2 & _). destruct (HR2 R2) as (F1 & F2 & D). rewrite B1, M2, K in F1. rewrite B2, M2, K in F2.
  pose proof (wrapk1 m (oc_q c1) (oc_ls c1)) as W1. pose proof (wrapk2 m (oc_q c1) (oc_ls c1)) as W2. rewrite K in W1, W2. rewrite E1, W1, kkeep1 in F1 by exact K. rewrite E2, W2, kkeep2 in F2 by exact K.
  rewrite M2, K in D. destruct (draw_default1 m (oc_q c2) (oc_q c1) (oc_ls c1) K) as (x & X1 & X2 & X3 & _).
  destruct (draw_default2 m (oc_q c2) (oc_q c1) (oc_ls c1) K) as (y & Y1 & Y2 & Y3 & _).
  exists x, y. split; [rewrite D, F1, F2, X1, Y1; cbn [bind]; destruct (Nat.ltb (oc_size c2) 2); reflexivity|]. auto.
Qed.
(** ... and plot_data (or hist) cannot be called with them. *)
Theorem options_reused_data c1 c2 d1 d2 : is_kde (oc_m c1) = true -> oc_1 c1 = Some d1 -> reaches c1 = true -> ou_1 (ocall_run new_session c1) = d2 ->
  oc_1 c2 = Some d2 -> is_kde (oc_m c2) = false -> exists e, ou_drawn (ocall_run new_session c2) = Err e /\ (reaches c2 = true -> e = TypeError).
Proof.
  intros K A1 R1 D1 B1 K2. destruct (reaches c2) eqn:R2.
  - exists TypeError. split; [|reflexivity]. destruct (run_parts new_session c2) as (_ & HR2 & _). destruct (HR2 R2) as (F1 & _ & D). rewrite D, K2.
    destruct (run_parts new_session c1) as (_ & HR & _). destruct (HR R1) as (E1 & _ & _). rewrite A1, K in E1.
    rewrite B1, K2 in F1.
    assert (S1 : forall d k v k', get k' d <> None -> get k' (setdefault d k v) <> None).
    { clear. intros d k v k' H. unfold setdefault. destruct (get k d); [exact H|]. induction d as [|[a b] d IH]; [contradiction (H eq_refl)|]. cbn in *. destruct (String.eqb k' a); [discriminate|apply IH, H]. }
    assert (S2 : forall kv d k', get k' d <> None -> get k' (setdefaults kv d) <> None).
    { clear -S1. induction kv as [|[k v] kv IH]; intros d k' H; [exact H|]. unfold setdefaults. cbn. apply IH, S1, H. }
    assert (Q : get "quantiles"%string d2 <> None).
    { rewrite <- D1, E1. unfold kde_opts, setdefaults at 1. cbn [fold_left fst snd]. apply S1, get_self. }
    assert (Q' : get "quantiles"%string (ou_1 (ocall_run new_session c2)) <> None) by (rewrite F1; apply S2, Q).
    unfold draw_1d, has_any, taken_1d. cbn [existsb]. destruct (get "quantiles"%string (ou_1 (ocall_run new_session c2))) as [v|]; [|contradiction (Q' eq_refl)].
    rewrite !orb_true_l, !orb_true_r. reflexivity.
  - destruct (run_parts new_session c2) as (_ & _ & HN). destruct (HN R2) as (_ & _ & e & He). exists e. split; [apply He|discriminate].
Qed.

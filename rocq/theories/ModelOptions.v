(** The option dictionaries of the methods of Corner (kalepy/plot.py): which options reach dist1d and dist2d. *)
From Coq Require Import String.
From Verif Require Import Base.
Open Scope R_scope.
Notation length := List.length.

(** Values of options. *)
Inductive oval := VNone | VBool (b : bool) | VNum (r : R) | VStr (s : string) | VList (l : list R).
(** Dictionaries: the first entry of a key counts. *)
Definition dict := list (string * oval).
Fixpoint get (k : string) (d : dict) : option oval :=
  match d with [] => None | (k', v) :: r => if String.eqb k k' then Some v else get k r end.
(** dict.setdefault *)
Definition setdefault (d : dict) (k : string) (v : oval) : dict := match get k d with Some _ => d | None => (d ++ [(k, v)])%list end.
Definition setdefaults (kv : list (string * oval)) (d : dict) : dict := fold_left (fun d p => setdefault d (fst p) (snd p)) kv d.
Definition has_any (ks : list string) (d : dict) : bool := existsb (fun k => match get k d with Some _ => true | None => false end) ks.

Inductive method := MClean | MHist | MPlot | MKde | MData.
Definition method_eqb (a b : method) : bool :=
  match a, b with MClean, MClean | MHist, MHist | MPlot, MPlot | MKde, MKde | MData, MData => true | _, _ => false end.
Local Open Scope string_scope.

(** plot.py:299-309 (clean), 347-358 (hist), 428-439 (plot): the options set by the wrappers, in order. *)
Definition wrapper_1d (m : method) : list (string * oval) :=
  match m with
  | MClean => [("density", VBool true); ("confidence", VBool false); ("carpet", VBool false); ("hist", VBool false)]
  | MHist => [("density", VBool false); ("confidence", VBool false); ("carpet", VBool false); ("hist", VBool true)]
  | MPlot => [("density", VBool true); ("confidence", VBool true); ("carpet", VBool true); ("hist", VBool false)]
  | _ => []
  end.
Definition wrapper_2d (m : method) : list (string * oval) :=
  match m with
  | MClean => [("hist", VBool false); ("contour", VBool true); ("scatter", VBool false); ("mask_dense", VBool false); ("mask_below", VBool false)]
  | MHist => [("hist", VBool true); ("contour", VBool false); ("scatter", VBool false); ("mask_dense", VBool false); ("mask_below", VBool false)]
  | MPlot => [("hist", VBool true); ("scatter", VBool true); ("contour", VBool true); ("mask_below", VBool true)]
  | _ => []
  end.
(** plot.py:701-748: the options set for each panel, in a copy of the dictionary. *)
Definition panel_1d (kde : bool) : list (string * oval) :=
  if kde then [("density", VBool true); ("confidence", VBool true); ("carpet", VBool false); ("hist", VBool false)]
  else [("density", VBool false); ("confidence", VBool false); ("carpet", VBool true); ("hist", VBool true)].
Definition panel_2d (kde : bool) : list (string * oval) :=
  if kde then [("hist", VBool false); ("contour", VBool true); ("scatter", VBool false); ("mask_below", VBool true)]
  else [("hist", VBool true); ("contour", VBool false); ("scatter", VBool true); ("mask_dense", VBool true); ("mask_below", VBool true)].
(** Keywords given explicitly beside the dictionary on the way to dist1d and dist2d (plot.py:545-548, 556-559, 673-676, 682-685,
    701-748, 1208, 1371): the dictionary must not contain them. *)
Definition taken_1d (kde : bool) : list string :=
  if kde then ["self"; "ax"; "edge"; "kde"; "param"; "rotate"; "color"; "edges"; "kde_data"]
  else ["self"; "ax"; "edge"; "data"; "weights"; "quantiles"; "rotate"; "color"; "edges"; "kde_data"].
Definition taken_2d (kde : bool) : list string :=
  if kde then ["self"; "ax"; "edges"; "kde"; "params"; "color"; "cmap"; "kde_data"]
  else ["self"; "ax"; "edges"; "data"; "weights"; "color"; "cmap"; "quantiles"; "kde_data"].
(** plot.py:1371-1373: the keywords of dist2d. *)
Definition known_2d : list string :=
  ["kde_data"; "ax"; "edges"; "weights"; "params"; "quantiles"; "sigmas"; "color"; "cmap"; "smooth"; "upsample"; "pad"; "ls"; "outline";
   "median"; "scatter"; "contour"; "hist"; "mask_dense"; "mask_below"; "mask_alpha"].
Definition unknown_2d (d : dict) : bool := existsb (fun p => negb (existsb (String.eqb (fst p)) known_2d)) d.

(** A call: the method, its dictionaries (None: not given), quantiles and line style (None: not given), the results of
    [_parse_kde_data] (and of the test for data) and of the checks and [parse_edges] in plot_kde or plot_data, and the number of parameters. *)
Record ocall := mkO { oc_m : method; oc_1 : option dict; oc_2 : option dict; oc_q : oval; oc_ls : option oval;
                      oc_parse : res unit; oc_check : res unit; oc_size : nat }.
(** The default dictionaries of the methods: created once, when the class is defined. *)
Definition session := method -> dict * dict.
Definition new_session : session := fun _ => ([], []).
(** What a call does: the default dictionaries afterwards, the dictionaries used as they are afterwards (those of the caller if given), and
    the options reaching dist1d and dist2d (the latter with two or more parameters). *)
Record outcome := mkOut { ou_sess : session; ou_1 : dict; ou_2 : dict; ou_drawn : res (dict * option dict) }.

(** The keyword [ls] exists for plot_kde and is passed on by clean; plot, plot_data and hence hist do not know it. *)
Definition ls_known (m : method) : bool := match m with MClean | MKde => true | _ => false end.
Definition is_kde (m : method) : bool := match m with MHist | MData => false | _ => true end.
Definition put (s : session) (m : method) (g1 g2 : option dict) (d : dict * dict) : session :=
  fun m' => if method_eqb m m' then (match g1 with None => fst d | Some _ => fst (s m) end, match g2 with None => snd d | Some _ => snd (s m) end)
            else s m'.
(** plot.py:533-537: plot_kde adds the quantiles and the line style to the dictionaries. *)
Definition kde_opts (q : oval) (ls : option oval) : list (string * oval) :=
  [("quantiles", q); ("ls", match ls with Some v => v | None => VStr "-" end)].
(** The options of a panel: the keywords must not be given twice; those of plot_data: the quantiles are given beside. *)
Definition draw_1d (kde : bool) (q : oval) (d : dict) : res dict :=
  if has_any (taken_1d kde) d then Err TypeError else
  Ok (setdefaults (panel_1d kde) (if kde then d else (d ++ [("quantiles", q)])%list)).
Definition draw_2d (kde : bool) (q : oval) (d : dict) : res dict :=
  if orb (has_any (taken_2d kde) d) (unknown_2d d) then Err TypeError else
  Ok (setdefaults (panel_2d kde) (if kde then d else (d ++ [("quantiles", q)])%list)).

(** One call of a method (plot.py:268-696).  [VNone] as quantiles of plot_data stands for the default ones. *)
Definition ocall_run (s : session) (c : ocall) : outcome :=
  let m := oc_m c in
  let d1 := match oc_1 c with Some d => d | None => fst (s m) end in
  let d2 := match oc_2 c with Some d => d | None => snd (s m) end in
  let fail d1 d2 e := mkOut (put s m (oc_1 c) (oc_2 c) (d1, d2)) d1 d2 (Err e) in
  (* plot.py: a keyword the method does not have *)
  if andb (match oc_ls c with Some _ => true | None => false end) (match m with MPlot | MData => true | _ => false end) then fail d1 d2 TypeError else
  match oc_parse c with
  | Err e => fail d1 d2 e
  | Ok _ =>
      let d1 := setdefaults (wrapper_1d m) d1 in
      let d2 := setdefaults (wrapper_2d m) d2 in
      if andb (match oc_ls c with Some _ => true | None => false end) (negb (ls_known m)) then fail d1 d2 TypeError else
      match oc_check c with
      | Err e => fail d1 d2 e
      | Ok _ =>
          let d1 := if is_kde m then setdefaults (kde_opts (oc_q c) (oc_ls c)) d1 else d1 in
          let d2 := if is_kde m then setdefaults (kde_opts (oc_q c) (oc_ls c)) d2 else d2 in
          mkOut (put s m (oc_1 c) (oc_2 c) (d1, d2)) d1 d2
            (do x <- draw_1d (is_kde m) (oc_q c) d1 ;;
             if Nat.ltb (oc_size c) 2 then Ok (x, None) else
             do y <- draw_2d (is_kde m) (oc_q c) d2 ;; Ok (x, Some y))
      end
  end.
Fixpoint history (s : session) (cs : list ocall) : session := match cs with [] => s | c :: r => history (ou_sess (ocall_run s c)) r end.

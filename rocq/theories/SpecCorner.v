(** What is expected of corner plots. *)
From Coq Require Import String.
From Verif Require Import Base ModelUtils ModelGrid ModelCorner ModelOptions SpecUtils.
Open Scope R_scope.
Notation length := List.length.

(** The range [ab] covers the values and one twentieth of their spread more on each side. *)
Definition covers (vals : list R) (ab : R * R) : Prop :=
  exists m M, min_of vals m /\ max_of vals M /\ fst ab = m - (M - m) / 20 /\ snd ab = M + (M - m) / 20.
(** Whether a call changes the limits: as asked for, else unless the user has fixed them. *)
Definition effective (user : bool) (k : plot_call) : bool := match pc_limit k with Some b => b | None => negb user end.
(** [v] is the union of ranges: the smallest lower and the largest upper end (None without ranges). *)
Definition union_of (rs : list (R * R)) (v : limval) : Prop :=
  match rs with
  | [] => v = LvNone
  | _ => exists a b, v = LvPair a b /\ min_of (map fst rs) a /\ max_of (map snd rs) b
  end.

(** A call of method [m] with its default dictionary for 1D (2D) that gets as far as drawing. *)
Definition reaches (c : ocall) : bool :=
  match oc_parse c, oc_check c with Ok _, Ok _ => match oc_ls c, oc_m c with Some _, (MHist | MPlot | MData) => false | _, _ => true end | _, _ => false end.
Definition uses_default1 (m : method) (c : ocall) : bool := andb (method_eqb m (oc_m c)) (andb (reaches c) (match oc_1 c with None => true | Some _ => false end)).
Definition uses_default2 (m : method) (c : ocall) : bool := andb (method_eqb m (oc_m c)) (andb (reaches c) (match oc_2 c with None => true | Some _ => false end)).
Definition line_style (c : ocall) : oval := match oc_ls c with Some v => v | None => VStr "-"%string end.

(** The part of the figure (row and column counted from the top left) in which a triangle of panels is expected. *)
Definition in_corner (n : nat) (o : bool * bool) (r c : nat) : Prop :=
  match o with
  | (true, false) => (r + c <= n - 1)%nat
  | (true, true) => (r <= c)%nat
  | (false, false) => (c <= r)%nat
  | (false, true) => (n - 1 <= r + c)%nat
  end.
(** Limits given by the user: one pair for each parameter. *)
Definition user_pairs (user : option (list (R * R))) : option (list limval) := match user with None => None | Some l => Some (map (fun p => LvPair (fst p) (snd p)) l) end.
Definition user_given (user : option (list (R * R))) : bool := match user with None => false | Some _ => true end.
Definition user_range (user : option (list (R * R))) (i : nat) : list (R * R) := match user with None => [] | Some l => [nth i l (0, 0)] end.
(** The ranges contributed by a list of calls, one list of ranges (per parameter) for each call. *)
Definition contributed (sorter : list (R * R) -> list (R * R)) (size : nat) (ks : list plot_call) (rss : list (list (R * R))) : Prop :=
  Forall2 (fun k rs => exists vals, call_values sorter k = Ok vals /\ length vals = size /\ Forall2 covers vals rs) ks rss.
(** The limits of a panel for a stored value. *)
Definition shown (v : limval) : option R * option R := match v with LvPair a b => (Some a, Some b) | LvNum a => (Some a, None) | LvNone => (None, None) end.
(** Panels above the diagonal are hidden; all panels of a column have the limits of its parameter horizontally, all panels of a row vertically
    (the diagonal only along its parameter: vertically in the last one if rotated). *)
Definition aligned (size : nat) (rotate : bool) (ext : nat -> limval) (ps : panels) : Prop :=
  forall i j, (i < size)%nat -> (j < size)%nat ->
    p_vis (ps i j) = negb (Nat.ltb i j)
    /\ ((j < i)%nat -> p_x (ps i j) = shown (ext j) /\ p_y (ps i j) = shown (ext i))
    /\ (i = j -> if andb rotate (Nat.eqb i (size - 1)) then p_y (ps i j) = shown (ext i) /\ p_x (ps i j) = (None, None)
                 else p_x (ps i j) = shown (ext i) /\ p_y (ps i j) = (None, None)).
(** Data and edges that can be plotted with [size] parameters. *)
Definition plottable (size : nat) (k : plot_call) : Prop :=
  length (pc_data k) = size /\ (forall row, In row (pc_data k) -> row <> [])
  /\ match pc_edges k with
     | EdAll e => e <> EdVec []
     | EdEach l => length l = size /\ ~ In (EdVec []) l
     end.
(** Edges chosen by number (at least one bin) or automatically. *)
Definition automatic (k : plot_call) : Prop :=
  match pc_edges k with
  | EdAll e => match e with EdAuto => True | EdNum n => (1 <= n)%nat | EdVec _ => False end
  | EdEach l => forall e, In e l -> match e with EdAuto => True | EdNum n => (1 <= n)%nat | EdVec _ => False end
  end.
(** Lines of constant parameter [k] have orientation [o] in the panel in row i, column j. *)
Definition along (size : nat) (rotate : bool) (i j k : nat) (o : orient) : Prop :=
  (i = j /\ k = i /\ o = if andb rotate (Nat.eqb i (size - 1)) then Horizontal else Vertical)
  \/ ((j < i)%nat /\ ((k = i /\ o = Horizontal) \/ (k = j /\ o = Vertical))).
(** An optional list of optional limits. *)
Definition given (o : option (list (option R))) (k : nat) : option R := match o with None => None | Some l => nth k l None end.

(** What each method draws in the panels on the diagonal and in the others, if not told otherwise. *)
Local Open Scope string_scope.
Definition shows_1d (m : method) : list (string * bool) :=
  combine ["density"; "confidence"; "carpet"; "hist"]
    match m with
    | MClean => [true; false; false; false]
    | MHist => [false; false; false; true]
    | MPlot => [true; true; true; false]
    | MKde => [true; true; false; false]
    | MData => [false; false; true; true]
    end.
(** The last switch is left alone by plot and plot_kde. *)
Definition shows_2d (m : method) : list (string * bool) :=
  combine ["contour"; "hist"; "scatter"; "mask_below"; "mask_dense"]
    match m with
    | MClean => [true; false; false; false; false]
    | MHist => [false; true; false; false; false]
    | MPlot => [true; true; true; true]
    | MKde => [true; false; false; true]
    | MData => [false; true; true; true; true]
    end.

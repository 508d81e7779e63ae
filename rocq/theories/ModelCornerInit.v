(** The rest of Corner.__init__ and _figax of kalepy/plot.py: figure, labels, ticks, grid lines.
    What is set on matplotlib's axes is the result; whether tick labels are visible is not modelled. *)
From Coq Require Import String ZArith.
From Verif Require Import Base.
Open Scope R_scope.
Notation length := List.length.

(* ------------------------------------------------------------ figures *)
(** A figure: its size and the spacing of its panels. *)
Record figure := mkFig { fg_size : R * R; fg_h : R; fg_w : R; fg_left : R; fg_bottom : R; fg_right : R; fg_top : R }.
(** pyplot: the figures, the number of figures, the current one (matplotlib keeps one for the whole process). *)
Record pyplot := mkPlt { pl_figs : nat -> figure; pl_count : nat; pl_current : nat }.
(** matplotlib's defaults (figure.subplot in rcParams). *)
Definition new_figure (size : R * R) : figure := mkFig size (1 / 5) (1 / 5) (1 / 8) (11 / 100) (9 / 10) (88 / 100).
(** plt.figure(figsize=...): a new figure, which becomes the current one. *)
Definition plt_figure (p : pyplot) (size : R * R) : nat * pyplot :=
  (pl_count p, mkPlt (fun k => if Nat.eqb k (pl_count p) then new_figure size else pl_figs p k) (S (pl_count p)) (pl_count p)).
Record spacing := mkSp { sp_left : option R; sp_bottom : option R; sp_right : option R; sp_top : option R; sp_h : option R; sp_w : option R }.
Definition given_or (o : option R) (old : R) : R := match o with Some v => v | None => old end.
(** plt.subplots_adjust: of the current figure; ValueError if left >= right or bottom >= top. *)
Definition subplots_adjust (p : pyplot) (s : spacing) : res pyplot :=
  let f := pl_figs p (pl_current p) in
  let f' := mkFig (fg_size f) (given_or (sp_h s) (fg_h f)) (given_or (sp_w s) (fg_w f)) (given_or (sp_left s) (fg_left f)) (given_or (sp_bottom s) (fg_bottom f))
                  (given_or (sp_right s) (fg_right f)) (given_or (sp_top s) (fg_top f)) in
  if orb (Rleb (fg_right f') (fg_left f')) (Rleb (fg_top f') (fg_bottom f')) then Err ValueError
  else Ok (mkPlt (fun k => if Nat.eqb k (pl_current p) then f' else pl_figs p k) (pl_count p) (pl_current p)).

(** The argument [figsize]: a number or a pair. *)
Inductive sizearg := SzNum (a : R) | SzPair (a b : R).
(** The argument [grid]; other than True and False it is a dictionary of line properties. *)
Inductive gridarg := GrTrue | GrFalse | GrNone | GrDict (style : nat).
(** np.clip. *)
Definition clip (x lo hi : R) : R := Rmin (Rmax x lo) hi.
(** plot.py:1975-1980. *)
Definition figure_size (size : nat) (figsize : option sizearg) : R * R :=
  match figsize with
  | None => (clip (4 * INR size) 6 20, clip (4 * INR size) 6 20)
  | Some (SzNum a) => (a, a)
  | Some (SzPair a b) => (a, b)
  end.
(** plot.py:1990-1999: the style of the grid lines drawn by _figax (0: the default one). *)
Definition grid_style (g : gridarg) : option nat :=
  match g with GrTrue => Some 0%nat | GrFalse | GrNone => None | GrDict s => Some (S s) end.
(** plot.py:1969-2002 [_figax] without further keyword arguments: the figure, the style of the grid lines.  With [fig] given a
    [figsize] is handed on to Figure.subplots, which does not know it.  fig.subplots needs at least one row. *)
Definition figax (p : pyplot) (size : nat) (fig : option nat) (figsize : option sizearg) (grid : gridarg) (s : spacing) : res (nat * option nat) * pyplot :=
  let (f, p1) := match fig with None => plt_figure p (figure_size size figsize) | Some f => (f, p) end in
  match fig, figsize with
  | Some _, Some _ => (Err TypeError, p1)
  | _, _ =>
      if Nat.eqb size 0 then (Err ValueError, p1) else
      let s1 := mkSp (sp_left s) (sp_bottom s) (sp_right s) (sp_top s) (Some (given_or (sp_h s) (1 / 10))) (Some (given_or (sp_w s) (1 / 10))) in
      match subplots_adjust p1 s1 with
      | Err e => (Err e, p1)
      | Ok p2 => (Ok (f, grid_style grid), p2)
      end
  end.

(* ------------------------------------------------------------ panels *)
(** The axes of a panel: visible, grid lines, labels, sides of labels and ticks (true: top, right), positions of the ticks (None: automatic). *)
Record face := mkFace { f_vis : bool; f_grid : bool; f_xlabel : string; f_ylabel : string; f_top : bool; f_right : bool;
                        f_xticks : option (list R); f_yticks : option (list R) }.
Definition with_vis (b : bool) (f : face) := mkFace b (f_grid f) (f_xlabel f) (f_ylabel f) (f_top f) (f_right f) (f_xticks f) (f_yticks f).
Definition with_grid (b : bool) (f : face) := mkFace (f_vis f) b (f_xlabel f) (f_ylabel f) (f_top f) (f_right f) (f_xticks f) (f_yticks f).
Definition with_xlabel (l : string) (f : face) := mkFace (f_vis f) (f_grid f) l (f_ylabel f) (f_top f) (f_right f) (f_xticks f) (f_yticks f).
Definition with_ylabel (l : string) (f : face) := mkFace (f_vis f) (f_grid f) (f_xlabel f) l (f_top f) (f_right f) (f_xticks f) (f_yticks f).
Definition with_top (b : bool) (f : face) := mkFace (f_vis f) (f_grid f) (f_xlabel f) (f_ylabel f) b (f_right f) (f_xticks f) (f_yticks f).
Definition with_right (b : bool) (f : face) := mkFace (f_vis f) (f_grid f) (f_xlabel f) (f_ylabel f) (f_top f) b (f_xticks f) (f_yticks f).
Definition with_xticks (t : option (list R)) (f : face) :=
  match t with None => f | Some _ => mkFace (f_vis f) (f_grid f) (f_xlabel f) (f_ylabel f) (f_top f) (f_right f) t (f_yticks f) end.
Definition with_yticks (t : option (list R)) (f : face) :=
  match t with None => f | Some _ => mkFace (f_vis f) (f_grid f) (f_xlabel f) (f_ylabel f) (f_top f) (f_right f) (f_xticks f) t end.
(** New axes of matplotlib, after the grid lines of _figax. *)
Definition new_face (grid : bool) : face := mkFace true grid EmptyString EmptyString false false None None.
(** l[k] of a list, k not negative. *)
Definition item {A} (l : list A) (k : nat) : res A := match nth_error l k with Some x => Ok x | None => Err IndexError end.
(** plot.py:182-245: what the loop does with the panel (ii, jj). *)
Definition decorate (size : nat) (rotate : bool) (origin : bool * bool) (labels : list string) (ticks : list (option (list R))) (ii jj : nat) (f0 : face) : res face :=
  let last := (size - 1)%nat in
  if Nat.ltb ii jj then Ok (with_vis false f0) else
  let f1 := with_grid true f0 in
  do f2 <- (if Nat.eqb ii last then
              do l <- item labels jj ;;
              let f := if andb rotate (Nat.eqb jj last) then with_ylabel l f1 else with_xlabel l f1 in
              Ok (if fst origin then with_top true f else f)
            else Ok (with_xlabel EmptyString f1)) ;;
  do f3 <- (if Nat.eqb jj 0 then
              do f <- (if negb (Nat.eqb ii 0) then do l <- item labels ii ;; Ok (with_ylabel l f2) else Ok f2) ;;
              Ok (if snd origin then with_right true f else f)
            else Ok (with_ylabel EmptyString f2)) ;;
  if Nat.eqb ii jj then
    let f4 := if andb (negb (Nat.eqb ii 0)) (negb (snd origin)) then with_right true f3 else with_right false f3 in
    do t <- item ticks jj ;;
    Ok (if andb (Nat.eqb ii last) rotate then with_yticks t f4 else with_xticks t f4)
  else
    do tx <- item ticks jj ;;
    let f4 := with_xticks tx f3 in
    do ty <- item ticks ii ;;
    Ok (with_yticks ty f4).
(** np.ndenumerate of a square array. *)
Definition cells (dim : nat) : list (nat * nat) := list_prod (seq 0 dim) (seq 0 dim).
(** plot.py:174-245: the loop over [dim] by [dim] axes ([dim] is [size] unless [axes] are given), labels and ticks None or given.
    The first error ends the loop. *)
Definition init_faces (size dim : nat) (rotate : bool) (origin : bool * bool) (labels : option (list string)) (ticks : option (list (option (list R))))
    (fs : nat -> nat -> face) : res (nat -> nat -> face) :=
  let ls := match labels with None => repeat EmptyString size | Some l => l end in
  let ts := match ticks with None => repeat None size | Some l => l end in
  do _ <- mapM (fun c => decorate size rotate origin ls ts (fst c) (snd c) (fs (fst c) (snd c))) (cells dim) ;;
  Ok (fun i j => if andb (Nat.ltb i dim) (Nat.ltb j dim)
                 then match decorate size rotate origin ls ts i j (fs i j) with Ok f => f | Err _ => fs i j end else fs i j).
(** plot.py:108-245 [Corner.__init__] for a number of parameters and new axes. *)
Definition corner_faces (p : pyplot) (size : nat) (rotate : bool) (origin : bool * bool) (labels : option (list string)) (ticks : option (list (option (list R))))
    (fig : option nat) (figsize : option sizearg) (grid : gridarg) (s : spacing) : res (nat -> nat -> face) * pyplot :=
  match figax p size fig figsize grid s with
  | (Err e, p1) => (Err e, p1)
  | (Ok (_, style), p1) => (init_faces size size rotate origin labels ticks (fun _ _ => new_face (match style with Some _ => true | None => false end)), p1)
  end.

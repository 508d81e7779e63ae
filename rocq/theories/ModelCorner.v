(** The class Corner of kalepy/plot.py: limits of the panels, option dictionaries, targets, legend, origin, weights.
    What the methods hand to matplotlib, or to dist1d and dist2d, is the result; drawing itself is not modelled. *)
From Coq Require Import String Ascii ZArith.
From Verif Require Import Base ModelLinAlg ModelKernels ModelKDE ModelExtrema ModelUtils ModelGrid ModelApi.
Open Scope R_scope.
Notation length := List.length.

(* ------------------------------------------------------------ limits *)
(** An entry of the list of limits: None, a number, or a pair. *)
Inductive limval := LvNone | LvNum (a : R) | LvPair (a b : R).
(** A panel: whether it is visible, and the limits set on its axes (None: chosen by matplotlib). *)
Record panel := mkPanel { p_vis : bool; p_x : opair; p_y : opair }.
Definition panels := nat -> nat -> panel.
(** matplotlib's set_xlim and set_ylim: a pair sets both ends, a number the lower one, None nothing. *)
Definition set_lim (v : limval) (old : opair) : opair :=
  match v with LvNone => old | LvNum a => (Some a, snd old) | LvPair a b => (Some a, Some b) end.
Definition is_last (size j : nat) : bool := Nat.eqb j (size - 1).

(** plot.py:1938: the repeated [extrema]: a pair of numbers is a pair of limits (anything else is refused by matplotlib). *)
Definition as_pair (l : list limval) : res limval :=
  match l with [LvNum a; LvNum b] => Ok (LvPair a b) | _ => Err TypeError end.
(** plot.py:1929-1966 [_set_corner_axes_extrema]. *)
Definition set_extrema (size : nat) (rotate : bool) (ext : list limval) (ps : panels) : res panels :=
  do ext1 <- (if andb (Nat.eqb (length ext) 2) (negb (Nat.eqb size 2)) then do v <- as_pair ext ;; Ok (repeat v size) else Ok ext) ;;
  if negb (Nat.eqb (length ext1) size) then Err ValueError else
  Ok (fun i j =>
        let p := ps i j in
        if negb (andb (Nat.ltb i size) (Nat.ltb j size)) then p
        else if Nat.ltb i j then mkPanel false (p_x p) (p_y p)
        else if Nat.eqb i j then
          (if andb rotate (is_last size j) then mkPanel (p_vis p) (p_x p) (set_lim (nth j ext1 LvNone) (p_y p))
           else mkPanel (p_vis p) (set_lim (nth j ext1 LvNone) (p_x p)) (p_y p))
        else mkPanel (p_vis p) (set_lim (nth j ext1 LvNone) (p_x p)) (set_lim (nth i ext1 LvNone) (p_y p))).

(** The instance: number of parameters, rotation, stored limits, flag, panels. *)
Record corner := mkCorner { co_size : nat; co_rotate : bool; co_limits : list limval; co_flag : bool; co_panels : panels }.
(** plot.py:183-187: panels above the diagonal are hidden. *)
Definition fresh_panels (size : nat) : panels := fun i j => mkPanel (negb (Nat.ltb i j)) (None, None) (None, None).
(** plot.py:108-266 [Corner.__init__]: the limits. *)
Definition corner_init (size : nat) (rotate : bool) (limits : option (list limval)) : res corner :=
  match limits with
  | None => Ok (mkCorner size rotate (repeat LvNone size) true (fresh_panels size))
  | Some l => do ps <- set_extrema size rotate l (fresh_panels size) ;; Ok (mkCorner size rotate l false ps)
  end.

(** plot.py:105 [_LIMITS_STRETCH] and plot.py:548, 676: the range of the values of one parameter (None without values). *)
Definition stretched (vals : list R) : res (option opair) := minmax vals false None (StScalar (1 / 10)) StNone None.
(** plot.py:564, 690: [minmax(limits[ii], prev=self._limits[ii])]; a stored number has no [len], minmax(None) fails. *)
Definition extend (old : limval) (new : option opair) : res limval :=
  do prev <- match old with LvNone => Ok None | LvNum _ => Err TypeError | LvPair a b => Ok (Some (Some a, Some b)) end ;;
  match new with
  | Some (Some lo, Some hi) =>
      do r <- minmax [lo; hi] false prev StNone StNone None ;;
      match r with Some (Some a, Some b) => Ok (LvPair a b) | _ => Err TypeError end
  | _ => Err TypeError
  end.
(** plot.py:521-569 and 652-696: the limits after drawing; [vals] the values of each parameter (edges for a KDE, else the data). *)
Definition plot_limits (c : corner) (vals : list (list R)) (limit : option bool) : res corner :=
  if negb (Nat.eqb (length vals) (co_size c)) then Err ValueError else
  do rs <- mapM stretched vals ;;
  if (match limit with None => co_flag c | Some b => b end) then
    (do ls <- mapM (fun ii => match nth_error (co_limits c) ii with None => Err IndexError | Some old => extend old (nth ii rs None) end) (seq 0 (co_size c)) ;;
     let ls1 := (ls ++ skipn (co_size c) (co_limits c))%list in
     do ps <- set_extrema (co_size c) (co_rotate c) ls1 (co_panels c) ;;
     Ok (mkCorner (co_size c) (co_rotate c) ls1 (co_flag c) ps))
  else Ok c.

(** plot.py:531, 664: [parse_edges(data, edges=edges)], at least 5 and at most 1000 bins, one bin width more on each side. *)
Definition plot_edges (sorter : list (R * R) -> list (R * R)) (data : list (list R)) (edges : edges_arg) : res (list (list R)) :=
  do es <- match edges with
           | EdAll e => Ok (repeat e (length data))
           | EdEach l => if Nat.eqb (length l) (length data) then Ok l else Err ValueError
           end ;;
  mapM (fun ii => let row := nth ii data [] in
          get_edges_1d sorter (nth ii es EdAuto) row (lmin row, lmax row) (length data) 5 1000 1 None 1 0)
       (seq 0 (length data)).
(** A call of plot_kde (from a KDE of the data) or plot_data. *)
Record plot_call := mkCall { pc_kde : bool; pc_data : list (list R); pc_edges : edges_arg; pc_limit : option bool }.
(** The values of each parameter that determine the limits: the edges or the data (plot.py:548, 676). *)
Definition call_values (sorter : list (R * R) -> list (R * R)) (k : plot_call) : res (list (list R)) :=
  do es <- plot_edges sorter (pc_data k) (pc_edges k) ;; Ok (if pc_kde k then es else pc_data k).
Definition corner_plot (sorter : list (R * R) -> list (R * R)) (c : corner) (k : plot_call) : res corner :=
  if negb (Nat.eqb (length (pc_data k)) (co_size c)) then Err ValueError else
  do vals <- call_values sorter k ;; plot_limits c vals (pc_limit k).
Definition corner_plots (sorter : list (R * R) -> list (R * R)) (c : corner) (ks : list plot_call) : res corner :=
  fold_left (fun r k => do c <- r ;; corner_plot sorter c k) ks (Ok c).

(* ------------------------------------------------------------ target *)
Inductive orient := Horizontal | Vertical.
(** Marks drawn in panel (row, column). *)
Inductive mark := Line (i j : nat) (o : orient) (x : R) | Span (i j : nat) (o : orient) (a b : R).
(** [extr[k]] as a pair. *)
Definition lim_pair (limits : list limval) (k : nat) : res (R * R) :=
  match nth_error limits k with None => Err IndexError | Some (LvPair a b) => Ok (a, b) | Some _ => Err TypeError end.
Definition opt_mark (x : option R) (f : R -> res mark) : res (list mark) :=
  match x with None => Ok [] | Some v => do m <- f v ;; Ok [m] end.
(** plot.py:821-837: a panel of the diagonal. *)
Definition target_1d (size : nat) (rotate : bool) (limits : list limval) (targets uppers lowers : list (option R)) (j : nat) : res (list mark) :=
  let o := if andb rotate (is_last size j) then Horizontal else Vertical in
  do t <- opt_mark (nth j targets None) (fun x => Ok (Line j j o x)) ;;
  do u <- opt_mark (nth j uppers None) (fun x => do e <- lim_pair limits j ;; Ok (Span j j o (fst e) x)) ;;
  do l <- opt_mark (nth j lowers None) (fun x => do e <- lim_pair limits j ;; Ok (Span j j o x (snd e))) ;;
  Ok (t ++ u ++ l)%list.
(** plot.py:844-849: parameter [k] in the panel in row i, column j. *)
Definition target_2d (limits : list limval) (targets uppers lowers : list (option R)) (i j k : nat) (o : orient) : res (list mark) :=
  do t <- opt_mark (nth k targets None) (fun x => Ok (Line i j o x)) ;;
  do u <- opt_mark (nth k uppers None) (fun x => do e <- lim_pair limits k ;; Ok (Span i j o (fst e) x)) ;;
  do l <- opt_mark (nth k lowers None) (fun x => do e <- lim_pair limits k ;; Ok (Span i j o x (fst e))) ;;
  Ok (t ++ u ++ l)%list.
(** plot.py:788-853 [Corner.target]. *)
Definition target (c : corner) (targets : list (option R)) (upper_limits lower_limits : option (list (option R))) : res (list mark) :=
  let size := co_size c in
  if negb (Nat.eqb (length targets) size) then Err ValueError else
  let lowers := match lower_limits with None => repeat None size | Some l => l end in
  if negb (Nat.eqb (length lowers) size) then Err ValueError else
  let uppers := match upper_limits with None => repeat None size | Some l => l end in
  if negb (Nat.eqb (length uppers) size) then Err ValueError else
  do d <- mapM (target_1d size (co_rotate c) (co_limits c) targets uppers lowers) (seq 0 size) ;;
  do o <- mapM (fun i => do r <- mapM (fun j =>
                  do h <- target_2d (co_limits c) targets uppers lowers i j i Horizontal ;;
                  do v <- target_2d (co_limits c) targets uppers lowers i j j Vertical ;; Ok (h ++ v)%list) (seq 0 i) ;; Ok (concat r)) (seq 0 size) ;;
  Ok (concat d ++ concat o)%list.

(* ------------------------------------------------------------ legend *)
(** An index of Python into [n] elements. *)
Definition py_index (n : nat) (z : Z) : res nat :=
  if andb (Z.leb 0 z) (Z.ltb z (Z.of_nat n)) then Ok (Z.to_nat z)
  else if andb (Z.ltb z 0) (Z.leb (- Z.of_nat n) z) then Ok (Z.to_nat (z + Z.of_nat n)) else Err IndexError.
(** plot.py:761-776: the panel and the corner of it chosen if nothing is given. *)
Definition legend_default (size : nat) : (Z * Z) * string :=
  if orb (Nat.eqb size 2) (orb (Nat.eqb size 3) (Nat.eqb size 4)) then ((0, -1)%Z, "lower left"%string)
  else if Nat.eqb size 1 then ((0, 0)%Z, "upper right"%string)
  else if Nat.even size then ((1, Z.of_nat (Nat.div size 2))%Z, "lower left"%string)
  else let i := (Nat.div size 2 + 1)%nat in ((Z.of_nat size - Z.of_nat i - 1, Z.of_nat i)%Z, "lower left"%string).
(** plot.py:750-786 [Corner.legend]: what fig.legend receives: [loc], and as anchor the lower left corner of the panel (None: nothing;
    [bbox], also named [bbox_to_anchor], is removed from the keywords). *)
Definition legend {B : Type} (size : nat) (index : option (Z * Z)) (loc : option string) (bbox : option B) : res (option string * option (nat * nat)) :=
  match bbox with
  | Some _ => Ok (loc, None)
  | None =>
      let il := match index with None => let d := legend_default size in (fst d, Some (snd d)) | Some i => (i, loc) end in
      do r <- py_index size (fst (fst il)) ;;
      do k <- py_index size (snd (fst il)) ;;
      Ok (snd il, Some (r, k))
  end.

(* ------------------------------------------------------------ origin *)
(** plot.py:2051-2070 [_parse_origin]: (vertical, horizontal), 1 for top and right. *)
Definition parse_origin (s : string) : res (bool * bool) :=
  match list_ascii_of_string s with
  | [a; b] =>
      do v <- (if Ascii.eqb (lower_c a) "t" then Ok true else if Ascii.eqb (lower_c a) "b" then Ok false else Err ValueError) ;;
      do h <- (if Ascii.eqb (lower_c b) "r" then Ok true else if Ascii.eqb (lower_c b) "l" then Ok false else Err ValueError) ;;
      Ok (v, h)
  | _ => Err ValueError
  end.
(** plot.py:157-163: the panel (i, j) of the instance is that in row and column (from the top left) of the figure. *)
Definition screen (size : nat) (o : bool * bool) (i j : nat) : nat * nat :=
  (if fst o then (size - 1 - i)%nat else i, if snd o then (size - 1 - j)%nat else j).

(* ------------------------------------------------------------ weights *)
(** A KDE (dataset and weights, None if uniform) or a dataset, given as rows. *)
Inductive source := SrcKde (d : list (list R)) (w : option (list R)) | SrcData (d : list (list R)).
Definition kdew := (list (list R) * option (list R))%type.
(** plot.py:2026-2048 [_parse_kde_data]: the KDE, the data and the weights; a dataset has at least one point. *)
Definition parse_kde_data (s : source) (w : warg) : res (kdew * list (list R) * warg) :=
  match s with
  | SrcKde d kw => match w with WNone => Ok ((d, kw), d, match kw with None => WNone | Some l => WArr (map Fin l) end) | _ => Err ValueError end
  | SrcData d => do kw <- check_weights (length (nth 0 d [])) w ;; Ok ((d, kw), d, w)
  end.
(** What the constructor stores (plot.py:143-152, 257-259); None if only the number of parameters was given. *)
Definition stored := option (kdew * list (list R))%type.
Definition store (s : source) (w : warg) : res stored := do r <- parse_kde_data s w ;; Ok (Some (fst (fst r), snd (fst r))).
(** What is drawn: a KDE with its weights, or data with weights. *)
Inductive drawing := DrawKde (k : kdew) | DrawData (d : list (list R)) (w : warg).
Definition stored_kde (st : stored) (s : option source) : res source :=
  match s with Some x => Ok x | None => match st with Some (k, _) => Ok (SrcKde (fst k) (snd k)) | None => Err ValueError end end.
(** plot.py:503-512 [Corner.plot_kde] (also called by [Corner.clean], [Corner.plot]: plot.py:285-313, 415-446). *)
Definition do_plot_kde (st : stored) (s : option source) (w : warg) : res drawing :=
  do x <- stored_kde st s ;; do r <- parse_kde_data x w ;; Ok (DrawKde (fst (fst r))).
Definition do_plot (st : stored) (s : option source) (w : warg) : res drawing :=
  do x <- stored_kde st s ;; do r <- parse_kde_data x w ;; do_plot_kde st (Some (SrcKde (fst (fst (fst r))) (snd (fst (fst r))))) WNone.
(** plot.py:631-640 [Corner.plot_data]. *)
Definition do_plot_data (st : stored) (s : option source) (w : warg) : res drawing :=
  do x <- match s with Some x => Ok x | None => match st with Some (_, d) => Ok (SrcData d) | None => Err ValueError end end ;;
  do r <- parse_kde_data x w ;; Ok (DrawData (snd (fst r)) (snd r)).
(** plot.py:337-362 [Corner.hist]. *)
Definition do_hist (st : stored) (s : option source) (w : warg) : res drawing :=
  do x <- stored_kde st s ;; do r <- parse_kde_data x w ;; do_plot_data st (Some (SrcData (snd (fst r)))) WNone.

(** What dist2d and draw_contour2d of kalepy/plot.py hand to matplotlib's axes.
    Simplifications: edges given, increasing and at least two in each direction; no smoothing and no upsampling; colours and line styles not modelled. *)
From Verif Require Import Base ModelLinAlg ModelKernels ModelKDE ModelUtils ModelNd ModelExtrema ModelReflect ModelApi ModelGrid ModelPlot ModelDist ModelContour ModelCarpet.
Open Scope R_scope.
Notation length := List.length.

(** A contour line: its level, its width (None: matplotlib's default), width and opacity of its outline. *)
Record line := mkLine { ln_level : R; ln_width : option R; ln_outline : option (R * R) }.
(** What is drawn, in order: points and their opacity; the lines of the medians and whether they have outlines; a histogram; contour lines of an array;
    the region between two values of an array, painted white (entries None: masked; no upper value: nan). *)
Inductive artist :=
| AScatter (pts : list (R * R)) (alpha : R)
| AVline (x : R) (outlined : bool)
| AHline (y : R) (outlined : bool)
| AHist (cells : nat -> nat -> option R)
| ALines (cs : list nda) (z : nda) (lines : list line)
| AMask (cs : list nda) (z : nat -> nat -> option R) (lo : R) (hi : option R).
(** plot.py:1525, 1540, 1547, 1568, 1608. *)
Definition zorder (a : artist) : nat :=
  match a with AScatter _ _ => 5 | AVline _ _ => 40 | AHline _ _ => 40 | AHist _ => 10 | ALines _ _ _ => 20 | AMask _ _ _ _ => 9 end.

(** Drawing: what has been drawn, also if an error ends it. *)
Definition drawing (A : Type) : Type := (list artist * res A)%type.
Definition dret {A} (x : A) : drawing A := ([], Ok x).
Definition dres {A} (r : res A) : drawing A := ([], r).
Definition put (a : artist) : drawing unit := ([a], Ok tt).
Definition dbind {A B} (d : drawing A) (f : A -> drawing B) : drawing B :=
  match snd d with Ok x => (fst d ++ fst (f x), snd (f x)) | Err e => (fst d, Err e) end.
Notation "x <~ d ;; f" := (dbind d (fun x => f)) (at level 61, d at next level, right associativity).
Definition dwhen (b : bool) (d : drawing unit) : drawing unit := if b then d else dret tt.

(* ------------------------------------------------------------ draw_contour2d *)
(** The arguments outline (with the truth value of other objects) and linewidths. *)
Inductive olarg := OlTrue | OlFalse | OlOther (truth : bool).
Inductive lwarg := LwNum (w : R) | LwList (l : list R) | LwNone.
Definition ol_truth (o : olarg) : bool := match o with OlTrue => true | OlFalse => false | OlOther b => b end.
(** plot.py:1858, 1862, 1871: the opacity of outlines. *)
Definition outline_alpha (alpha : R) : R := 1 - sqrt (1 - alpha).
(** matplotlib's contour: too small an array is a TypeError; without a level strictly inside the range of the array the lowest value is the
    only level (with a warning); levels that do not increase strictly are a ValueError. *)
Definition big_enough (z : nda) : bool := match shp z with [a; b] => andb (Nat.leb 2 a) (Nat.leb 2 b) | _ => false end.
Fixpoint increasing (l : list R) : bool := match l with a :: ((b :: _) as r) => andb (Rltb a b) (increasing r) | _ => true end.
Definition arr_min (z : nda) : R := match flatten_nd z with [] => 0 | x :: r => vmin x r end.
Definition mpl_levels (z : nda) (levels : list R) : res (list R) :=
  if negb (big_enough z) then Err TypeError else
  let lv := if existsb (fun v => andb (Rltb (arr_min z) v) (Rltb v (nd_max z))) levels then levels else [arr_min z] in
  if increasing lv then Ok lv else Err ValueError.
(** matplotlib's contour: a list of widths is repeated as often as needed (the list is not empty). *)
Definition mpl_width (lw : lwarg) (i : nat) : option R :=
  match lw with LwNum w => Some w | LwList l => nth_error l (i mod length l) | LwNone => None end.
(** plot.py:1853-1872: the outlines of [n] contour lines. *)
Definition outline_effects (lw : lwarg) (alpha : option R) (n : nat) : res (list (R * R)) :=
  match alpha, lw with
  | None, _ | _, LwNone => Err TypeError
  | Some a, LwNum w => Ok (repeat (2 * w, outline_alpha a) n)
  | Some a, LwList l => if Nat.eqb (length l) n then Ok (map (fun w => (2 * w, outline_alpha a)) l) else Ok (repeat (2 * (3 / 2), outline_alpha a) n)
  end.
Definition mk_lines (lw : lwarg) (levels : list R) (effects : nat -> option (R * R)) : list line :=
  map (fun i => mkLine (nth i levels 0) (mpl_width lw i) (effects i)) (seq 0 (length levels)).
(** plot.py:1833-1882 [draw_contour2d] without colour bar: coordinates, array and lines.  matplotlib refuses an opacity outside [0, 1]. *)
Definition draw_contour2d (edges : list (list R)) (hist : nda) (quantiles levels : option (list R)) (pad : padarg) (lw : lwarg) (alpha : option R) (ol : olarg)
  : drawing (list nda * nda * list line) :=
  ch <~ dres (prep_hist edges hist pad) ;;
  lv <~ dres (contour_levels (snd ch) quantiles levels) ;;
  dl <~ dres (mpl_levels (snd ch) lv) ;;
  _ <~ dres (match alpha with Some a => if andb (Rleb 0 a) (Rleb a 1) then Ok tt else Err ValueError | None => Ok tt end) ;;
  let bare := mk_lines lw dl (fun _ => None) in
  match ol with
  | OlFalse => _ <~ put (ALines (fst ch) (snd ch) bare) ;; dret (fst ch, snd ch, bare)
  | OlOther _ => _ <~ put (ALines (fst ch) (snd ch) bare) ;; dres (Err ValueError)
  | OlTrue =>
      match outline_effects lw alpha (length dl) with
      | Err e => _ <~ put (ALines (fst ch) (snd ch) bare) ;; dres (Err e)
      | Ok effs => let lines := mk_lines lw dl (nth_error effs) in _ <~ put (ALines (fst ch) (snd ch) lines) ;; dret (fst ch, snd ch, lines)
      end
  end.

(* ------------------------------------------------------------ dist2d *)
(** What dist2d returns: nothing, the points, the histogram, or a line in the colour of a contour. *)
Inductive handle := HNone | HScatter | HHist | HLine (l : line).
(** plot.py:1508-1509: the default of mask_dense. *)
Definition dense_masked (lim : option (option nat)) (contour hist : bool) (mask_dense : option bool) : bool :=
  match mask_dense with Some b => b | None => andb (match lim with Some _ => true | None => false end) (orb hist contour) end.
(** plot.py:1530-1535: the median of one row of data. *)
Definition dist2d_median (sorter : list (R * R) -> list (R * R)) (dd : list R) (ws : option (list R)) : res R :=
  match ws with
  | None => Ok (np_median dd)
  | Some w => do q <- quantiles sorter dd (Some [1 / 2]) (Some w) false ;; Ok (vget q 0)
  end.
(** The largest entry that is not masked. *)
Definition visible (n m : nat) (z : nat -> nat -> option R) : list R :=
  flat_map (fun i => flat_map (fun j => match z i j with Some v => [v] | None => [] end) (seq 0 m)) (seq 0 n).
Definition visible_max (n m : nat) (z : nat -> nat -> option R) : option R :=
  match visible n m z with [] => None | x :: r => Some (vmax x r) end.
(** plot.py:1599-1608: the white region, [z] the array (with [at_] its entries even where masked) of n by m entries.  matplotlib's contourf:
    ValueError unless the lower value is below the upper one; an upper value nan is let pass. *)
Definition draw_mask (cs : list nda) (h : nda) (z : nat -> nat -> option R) (quantiles : list R) : drawing unit :=
  if negb (big_enough h) then dret tt else
  lv <~ dres (dfm_levels h (Some quantiles) None) ;;
  match snd (fst lv) with
  | [] => dres (Err ValueError)
  | x :: r =>
      let lo := vmin x r in
      let hi := visible_max (nth 0 (shp h) 0%nat) (nth 1 (shp h) 0%nat) z in
      match hi with
      | Some v => if Rltb lo v then put (AMask cs z lo hi) else dres (Err ValueError)
      | None => put (AMask cs z lo hi)
      end
  end.
Definition rows_of (p : points_arg) : list (list R) := match p with PtRows l => l | PtFlat l => [l] | PtScalar r => [[r]] end.
(** plot.py:1502-1610 [dist2d] once the two rows of data [xs], [ys], their weights (None: equal) and the edges are found; [flat], [points]: see
    [dist2d_contour]; [sel]: np.random.choice. *)
Definition dist2d_draw (sorter : list (R * R) -> list (R * R)) (sel : nat -> nat -> list nat) (K : kde) (xs ys : list R) (ws : option (list R)) (ex ey : list R)
    (params : list nat) (quantiles sigmas : option (list R)) (pad : padarg) (ol : olarg) (median : bool) (scatter : numarg) (contour hist : bool)
    (mask_dense : option bool) (mask : maskarg) (flat : bool) (points : res (list (list R))) : drawing handle :=
  lim <~ dres (scatter_limit scatter) ;;
  let md := dense_masked lim contour hist mask_dense in
  let data := combine xs ys in
  let hw := match ws with Some w => w | None => map (fun _ => 1) data end in
  let hh := hist2d_array ex ey data hw in
  lv <~ dres (dfm_levels hh quantiles sigmas) ;;
  let qs := snd lv in
  m <~ dres (dist2d_mask hh quantiles sigmas mask) ;;
  let cells := fun i j => if hist2d_hidden m (at_ hh [i; j]) then None else Some (at_ hh [i; j]) in
  let pts := match lim with Some k => limited k sel (0, 0) data | None => [] end in
  _ <~ dwhen (match lim with Some _ => true | None => false end) (put (AScatter pts (default_alpha (length pts)))) ;;
  _ <~ dwhen median (mx <~ dres (dist2d_median sorter xs ws) ;; _ <~ put (AVline mx (ol_truth ol)) ;;
                     my <~ dres (dist2d_median sorter ys ws) ;; put (AHline my (ol_truth ol))) ;;
  _ <~ dwhen hist (put (AHist cells)) ;;
  let h0 := if hist then HHist else match lim with Some _ => HScatter | None => HNone end in
  c <~ (if contour then
          pd <~ dres (dist2d_contour K params flat points) ;;
          r <~ draw_contour2d (rows_of (fst pd)) (snd pd) (Some qs) None pad (LwNum (3 / 2)) (Some (8 / 10)) ol ;;
          match h0 with
          | HNone => match nth_error (snd r) (if Nat.ltb 0 (length (snd r)) then 1 else 0) with
                     | Some l => dret (Some (fst r), HLine l)
                     | None => dres (Err IndexError)
                     end
          | _ => dret (Some (fst r), h0)
          end
        else dret (None, h0)) ;;
  _ <~ dwhen md
         (match fst c with
          | Some (cs, h) => draw_mask cs h (fun i j => Some (at_ h [i; j])) qs
          | None => if hist then draw_mask (map (mesh [mids ex; mids ey]) (seq 0 2)) hh cells qs
                    else ch <~ dres (prep_hist [ex; ey] hh pad) ;; draw_mask (fst ch) (snd ch) (fun i j => Some (at_ (snd ch) [i; j])) qs
          end) ;;
  dret (snd c).

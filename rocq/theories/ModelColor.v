(** Colours and colormaps of the plots (kalepy/plot.py). *)
From Coq Require Import ZArith.
From Verif Require Import Base.
Open Scope R_scope.

(** A colour: the result of matplotlib's to_rgb, three numbers between 0 and 1.  Simplification: opacity is not modelled. *)
Record rgb := mkRGB { c_r : R; c_g : R; c_b : R }.
(** A colormap: the colour for each number between 0 and 1. *)
Definition cmap := R -> rgb.
Definition map_rgb (f : R -> R) (c : rgb) : rgb := mkRGB (f (c_r c)) (f (c_g c)) (f (c_b c)).

(** numpy: x % 1. *)
Definition mod_one (x : R) : R := x - IZR (Int_part x).
(** matplotlib.colors.rgb_to_hsv (used in plot.py:2188) for one colour: hue, saturation, value.  Where several components are the largest,
    the assignment for blue comes last, that for red first. *)
Definition rgb_to_hsv (c : rgb) : R * R * R :=
  let mx := Rmax (c_r c) (Rmax (c_g c) (c_b c)) in
  let d := mx - Rmin (c_r c) (Rmin (c_g c) (c_b c)) in
  let s := if Rltb 0 mx then d / mx else 0 in
  let h := if Rltb 0 d then
             (if Reqb (c_b c) mx then 4 + (c_r c - c_g c) / d
              else if Reqb (c_g c) mx then 2 + (c_b c - c_r c) / d
              else (c_g c - c_b c) / d)
           else 0 in
  (mod_one (h / 6), s, mx).
(** matplotlib.colors.hsv_to_rgb (used in plot.py:2196) for one colour. *)
Definition hsv_to_rgb (hsv : R * R * R) : rgb :=
  let '(h, s, v) := hsv in
  let i := Int_part (h * 6) in
  let f := h * 6 - IZR i in
  let p := v * (1 - s) in
  let q := v * (1 - s * f) in
  let t := v * (1 - s * (1 - f)) in
  if Reqb s 0 then mkRGB v v v else
  match (i mod 6)%Z with
  | 0%Z => mkRGB v t p
  | 1%Z => mkRGB q v p
  | 2%Z => mkRGB p v t
  | 3%Z => mkRGB p q v
  | 4%Z => mkRGB t p v
  | _ => mkRGB v p q
  end.

(** np.interp(t, [0, 1], [a, b]). *)
Definition interp01 (t a b : R) : R := if Rleb t 0 then a else if Rleb 1 t then b else a + (b - a) * t.
(** x**p for x >= 0 and p > 0. *)
Definition pow_pos (x p : R) : R := if Reqb x 0 then 0 else Rpower x p.
(** plot.py:2201-2202: the distance of two colours over sqrt(3). *)
Definition colour_dist (c : rgb) (x : R) : R :=
  sqrt ((x - c_r c) * (x - c_r c) + (x - c_g c) * (x - c_g c) + (x - c_b c) * (x - c_b c)) / sqrt 3.

(** matplotlib's LinearSegmentedColormap.from_list of three colours, evaluated through its table of 256 entries: entry k is the piecewise
    linear interpolation at k/255, and x is looked up in entry int(256 x), the last for x = 1. *)
Definition seg3 (lo mid hi : R) (t : R) : R := if Rleb t (1 / 2) then lo + (mid - lo) * (2 * t) else mid + (hi - mid) * (2 * t - 1).
Definition lut_pos (x : R) : R := IZR (Z.min 255 (Z.max 0 (Int_part (x * 256)))) / 255.
Definition from_three (lo mid hi : rgb) : cmap := fun x =>
  mkRGB (seg3 (c_r lo) (c_r mid) (c_r hi) (lut_pos x)) (seg3 (c_g lo) (c_g mid) (c_g hi) (lut_pos x)) (seg3 (c_b lo) (c_b mid) (c_b hi) (lut_pos x)).

(** plot.py:2181-2209 [_color_to_cmap] with its default parameters: the colour made stronger ... *)
Definition strengthen (c : rgb) : rgb :=
  let '(h, s, v) := rgb_to_hsv c in hsv_to_rgb (h, interp01 (1 / 4) s 1, interp01 (1 / 4) v 1).
(** ... and the colormap from near white to near black through it. *)
Definition color_to_cmap (col : rgb) : cmap :=
  let c := strengthen col in
  let dw := colour_dist c 1 in
  let db := colour_dist c 0 in
  let lo := map_rgb (fun l => interp01 (pow_pos dw (333 / 1000)) l 1) c in
  let hi := map_rgb (fun l => interp01 (pow_pos db (333 / 1000)) l 0) c in
  from_three lo c hi.

(** plot.py:2156-2174 [_parse_color_cmap]; [next] is the next colour of the cycle of the axes.  Simplification: [cm] is a colormap, or the name
    of one (lists of colours are not modelled). *)
Definition parse_color_cmap (next : rgb) (color : option rgb) (cm : option cmap) : rgb * cmap :=
  match color, cm with
  | None, None => (next, color_to_cmap next)
  | None, Some m => (m (1 / 2), m)
  | Some c, _ => (c, color_to_cmap c)
  end.

(** What plot.py:1501 and 1547-1568 [dist2d] and 1195 [contour] use: the colour of points and lines, and the colormap. *)
Definition dist2d_colours (next : rgb) (color : option rgb) (cm : option cmap) : rgb * cmap := parse_color_cmap next color cm.
(** plot.py:538-560 [Corner.plot_kde] and 662-687 [Corner.plot_data] (and clean, hist, plot, which pass on both arguments): the colour used in the
    panels on the diagonal, and what dist2d uses in the others, where [next'] is the next colour of that panel. *)
Definition corner_colours (next next' : rgb) (color : option rgb) (cm : option cmap) : rgb * (rgb * cmap) :=
  let cc := parse_color_cmap next color cm in (fst cc, dist2d_colours next' (Some (fst cc)) (Some (snd cc))).

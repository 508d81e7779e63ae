(** The [points] argument of KDE and the [edges] argument of parse_edges as they are written by the caller. *)
From Coq Require Import ZArith.
From Verif Require Import Base ModelLinAlg ModelKernels ModelKDE ModelExtrema ModelInterp ModelResample ModelUtils ModelNd ModelGrid.
Open Scope R_scope.
Notation length := List.length.

(** An entry of a sequence: None, an integer, a floating point number, a flat sequence (entries may be None), or something nested more deeply. *)
Inductive eelem := ENone | EInt (z : Z) | EFlt (r : R) | EVec (l : list (option R)) | ENest.
Inductive eraw := ErNone | ErInt (z : Z) | ErFlt (r : R) | ErSeq (l : list eelem).

(** np.shape(e) == () *)
Definition e_scalar (e : eelem) : bool := match e with ENone | EInt _ | EFlt _ => true | _ => false end.
Definition e_value (e : eelem) : option R := match e with EInt z => Some (IZR z) | EFlt r => Some r | _ => None end.
(** utils.py:536-564 [really1d]. *)
Definition e_really1d (l : list eelem) : bool := forallb e_scalar l.

(** utils.py:1033-1075 [_get_edges_1d]: the number of bins plus one goes to np.linspace, which rejects floating point numbers (TypeError) and
    negative numbers (ValueError); the edges are guessed first in any case. *)
Definition edges_1d_raw (sorter : list (R * R) -> list (R * R)) (e : eelem) (data : list R) (ext : R * R) (ndim nmin nmax : nat) (pad : R)
    (weights : option (list R)) (refine bw : R) : res (list (option R)) :=
  match e with
  | EVec l => Ok l
  | ENest => Err ValueError
  | _ =>
      do g <- guess_edges sorter data ext ndim weights nmin nmax refine bw ;;
      do num <- match e with ENone => Ok (Z.of_nat (fst g)) | EInt z => Ok z | _ => Err TypeError end ;;
      let pw := pad * snd g in
      if (num + 1 <? 0)%Z then Err ValueError
      else Ok (map Some (linspace (fst ext - pw) (snd ext + pw) (Z.to_nat (num + 1))))
  end.
(** utils.py:448-455: one specification for all dimensions, unless a sequence has as many entries as there are dimensions. *)
Definition edges_spread (npars : nat) (e : eraw) : res (list eelem) :=
  match e with
  | ErNone => Ok (repeat ENone npars)
  | ErInt z => Ok (repeat (EInt z) npars)
  | ErFlt r => Ok (repeat (EFlt r) npars)
  | ErSeq l =>
      if andb (e_really1d l) (negb (Nat.eqb (length l) npars)) then Ok (repeat (EVec (map e_value l)) npars)
      else if negb (Nat.eqb (length l) npars) then Err ValueError
      else Ok l
  end.
(** utils.py:429-466 [parse_edges], finite extrema given for every dimension. *)
Definition parse_edges_raw (sorter : list (R * R) -> list (R * R)) (data : list pt) (npars : nat) (e : eraw) (ext : list (R * R))
    (weights : option (list R)) (nmin nmax : nat) (pad refine : R) (bw : mat) : res (list (list (option R))) :=
  do es <- edges_spread npars e ;;
  mapM (fun ii => edges_1d_raw sorter (nth ii es ENone) (coords ii data) (nth ii ext (0, 0)) npars nmin nmax pad weights refine (bw ii ii)) (seq 0 npars).
(** kde.py:639-660 [KDE.points], not yet computed. *)
Definition kde_points_raw (sorter : list (R * R) -> list (R * R)) (K : kde) (bw : mat) (ext : list (R * R)) (points : eraw) : res (list (list (option R))) :=
  parse_edges_raw sorter (kd_data K) (kd_ndim K) points ext (kd_weights K) 3 200 0 (sqrt 10) bw.
(** kde.py:655-656: for data given as a vector np.squeeze removes all axes of length one, also that of a single point. *)
Inductive gridval := GScalar (x : option R) | GVector (l : list (option R)) | GGrids (g : list (list (option R))).
Definition points_squeeze (squeeze : bool) (g : list (list (option R))) : gridval :=
  match squeeze, g with
  | true, [[x]] => GScalar x
  | true, [l] => GVector l
  | _, _ => GGrids g
  end.

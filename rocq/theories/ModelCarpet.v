(** The function carpet of kalepy/plot.py: what it hands to matplotlib's scatter, and its result.  Simplifications: no weights (their effect on
    the sizes is [carpet_sizes] of ModelDist), data in one vector of numbers, options of scatter other than alpha and size not modelled. *)
From Verif Require Import Base ModelLinAlg ModelKernels ModelKDE ModelUtils ModelGrid ModelNd ModelInterp ModelPlot ModelDist.
Open Scope R_scope.
Notation length := List.length.

Inductive noise := NoNormal | NoUniform | NoOther.
Record drawn := mkDrawn { dr_points : list (R * R); dr_sizes : list R; dr_alpha : R; dr_extent : option opair }.

(** plot.py:2132-2136 [_scatter_alpha] for [n] points; with no points numpy divides by zero and the limit is one. *)
Definition default_alpha (n : nat) : R := if Nat.eqb n 0 then 1 else Rmin (Rmax (10 / sqrt (INR n)) 0) 1.
(** np.clip(alpha, 0, 1). *)
Definition clip01 (a : R) : R := Rmin (Rmax a 0) 1.
(** plot.py:1022-1023 without weights. *)
Definition base_size (n : nat) : R := Rmin (Rmax (300 / sqrt (INR n)) 5) 100.

(** plot.py:987-998: spread and baseline of the ordinates; [top]: upper limit of the axis. *)
Definition carpet_ystd (top : R) (ystd yave : option R) : R :=
  match ystd, yave with
  | Some s, _ => s
  | None, None => top * (2 / 100)
  | None, Some a => Rabs a / 5
  end.
Definition carpet_yave (top : R) (ystd yave : option R) : R :=
  match yave with Some a => a | None => -5 * carpet_ystd top ystd yave end.

(** np.mean, np.std. *)
Definition np_mean (l : list R) : R := lsum l / INR (length l).
Definition np_std (l : list R) : R := sqrt (lsum (map (fun x => (x - np_mean l) * (x - np_mean l)) l) / INR (length l)).
(** plot.py:1028: distance from the median in standard deviations. *)
Definition deviation (l : list R) (x : R) : R := Rabs (x - np_median l) / np_std l.

(** plot.py:927-1057 [carpet].  [z k]: the k-th random number (standard normal, or uniform in [0, 1]); [sel]: np.random.choice; [alpha]: the
    keyword, if given.  With [fancy] the standard deviation must not be zero (None: all ordinates are nan). *)
Definition carpet (sel : nat -> nat -> list nat) (z : nat -> R) (top : R) (xx : list R) (ystd yave : option R) (shift : R) (limit : option nat)
    (fancy : bool) (random : noise) (rotate : bool) (alpha : option R) : res (option drawn) :=
  let xs := limited limit sel 0 xx in
  let n := length xs in
  let s := carpet_ystd top ystd yave in
  let a := carpet_yave top ystd yave in
  do y0 <- match random with
           | NoNormal => if Rltb s 0 then Err ValueError else Ok (map (fun k => a + s * z k) (seq 0 n))
           | NoUniform => Ok (map (fun k => (a - s) + ((a + s) - (a - s)) * z k) (seq 0 n))
           | NoOther => Err ValueError
           end ;;
  let al := clip01 (match alpha with Some v => v | None => default_alpha n end) in
  if andb fancy (Reqb (np_std xs) 0) then Ok None else
  let dev := map (deviation xs) xs in
  let ys := if fancy then map (fun p => (fst p - a) / (sqrt (snd p) + 1) + a) (combine y0 dev) else y0 in
  let sizes := if fancy then map (fun d => base_size n / (3 / 2) * (3 / 2 + d)) dev else repeat (base_size n) n in
  do ext <- minmax ys false None StNone StNone None ;;
  let yd := map (fun y => y + shift) ys in
  Ok (Some (mkDrawn (if rotate then combine yd xs else combine xs yd) sizes al ext)).

(** Vocabulary for the law of samples from gridded distributions. *)
From Coquelicot Require Import Coquelicot.
From Verif Require Import Base ModelLinAlg ModelNd ModelSample SpecUtils SpecNd SpecSample.
Open Scope R_scope.
Notation length := List.length.
(** Ends of the bin [idx] along dimension [d]. *)
Definition left_of (edges : list (list R)) (d : nat) (idx : list nat) : R := nth (nth d idx 0%nat) (nth d edges []) 0.
Definition right_of (edges : list (list R)) (d : nat) (idx : list nat) : R := nth (S (nth d idx 0%nat)) (nth d edges []) 0.
(** Difference of the density across the bin, relative to the mean of all densities; differences up to 1e-16 count as none. *)
Definition rel_slope (dens : nda) (d : nat) (idx : list nat) : R :=
  (side_mean dens d 1 idx - side_mean dens d 0 idx) / (total dens / INR (size_of_shape (shp dens))).
Definition used_slope (interp : bool) (dens : nda) (d : nat) (idx : list nat) : R :=
  if interp then (if Rlt_dec (/ 10 ^ 16) (Rabs (rel_slope dens d idx)) then rel_slope dens d idx else 0) else 0.
(** The part of the bin (between 0 and 1) that is reached with the slope [g]. *)
Definition reach_lo (g : R) : R := if Rle_dec g 2 then 0 else 1 - 2 / g.
Definition reach_hi (g : R) : R := if Rle_dec (-2) g then 1 else - 2 / g.
(** [l] is the mean of [h] over [a, b] with a linear density of slope [g] on the part that is reached. *)
Definition bin_mean (a b g : R) (h : R -> R) (l : R) : Prop :=
  is_RInt (fun x => h x * ((1 - g / 2 + g * ((x - a) / (b - a))) / (b - a))) (a + (b - a) * reach_lo g) (a + (b - a) * reach_hi g) l.
(** Coordinate [d] of a single sample: [u0] chooses the bin, [u] the position along [d], [c] those along the other dimensions. *)
Definition one_draw (G : sgrid) (interp : bool) (d : nat) (c : nat -> R) (u0 u : R) : R :=
  match sg_sample G (Some 1) interp None (fun k _ => match k with O => u0 | S k' => if Nat.eq_dec k' d then u else c k' end) with
  | Ok (vals, _) => column vals 0 d
  | Err _ => 0
  end.

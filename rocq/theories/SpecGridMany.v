(** Vocabulary for means over many samples from gridded distributions. *)
From Verif Require Import Base ModelLinAlg ModelNd ModelSample SpecUtils SpecNd SpecSample SpecGridLaw.
Open Scope R_scope.
Notation length := List.length.
(** The random numbers: [u0] for the bins; for the positions [c], but [u] for coordinate [d] of sample [j]. *)
Definition with_one (u0 : nat -> R) (c : nat -> nat -> R) (d j : nat) (u : R) : nat -> nat -> R :=
  fun k i => match k with O => u0 i | S k' => if Nat.eq_dec k' d then if Nat.eq_dec i j then u else c k' i else c k' i end.
(** Coordinate [d] of sample [j] of [n]. *)
Definition nth_draw (G : sgrid) (interp : bool) (n d j : nat) (u0 : nat -> R) (c : nat -> nat -> R) (u : R) : R :=
  match sg_sample G (Some (INR n)) interp None (with_one u0 c d j u) with
  | Ok (vals, _) => column vals j d
  | Err _ => 0
  end.
(** Coordinate [d] of the light sample [j] of [n], which comes after the [h] heavy bins. *)
Definition light_draw (G : sgrid) (t : R) (pin : option (nat -> nat)) (pout : option nat) (interp : bool) (h d j : nat) (u0 : nat -> R) (c : nat -> nat -> R) (u : R) : R :=
  match so_sample G t pin pout interp RsAbsent (with_one u0 c d j u) with
  | Ok (_, vals, _) => column vals (h + j) d
  | Err _ => 0
  end.
(** Share of a bin in the mass of the bins at or below the threshold. *)
Definition light_share (t : R) (m : nda) (idx : list nat) : R := (if Rlt_dec t (at_ m idx) then 0 else at_ m idx) / light_mass t m.

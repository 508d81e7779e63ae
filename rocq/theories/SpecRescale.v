(** Bandwidths multiplied by numbers. *)
From Coq Require Import String.
From Verif Require Import Base ModelLinAlg ModelKDE.
Open Scope R_scope.
Notation length := List.length.

(** Bandwidths given as numbers, each multiplied by [s]. *)
Inductive times_number (s : R) : bwarg -> bwarg -> Prop :=
| tn_one r : times_number s (BwAtom (BNum r)) (BwAtom (BNum (s * r)))
| tn_each l : times_number s (BwSeq (map BNum l)) (BwSeq (map BNum (map (Rmult s) l)))
| tn_matrix isarr rows : times_number s (BwMat isarr rows) (BwMat isarr (map (map (Rmult s)) rows)).
(** Bandwidths of independent parameters (one for each, or a common one with diagonal=True), each multiplied by its own number. *)
Inductive times_each (n : nat) (l : list R) : bwarg -> bool -> bwarg -> Prop :=
| te_each r diag : length r = n -> times_each n l (BwSeq (map BNum r)) diag (BwSeq (map BNum (map (fun p => fst p * snd p) (combine l r))))
| te_common r : times_each n l (BwAtom (BNum r)) true (BwSeq (map (fun s => BNum (s * r)) l)).

(** Integrals used in statements.  [is_tint f l]: the improper Riemann integral of [f] over the
    whole real line exists and equals [l] (Coquelicot's definition).  [is_tintN n f l]: the iterated
    integral over the first [n] coordinates, coordinate 0 innermost. *)
From Coquelicot Require Import Coquelicot.
From Verif Require Import Base ModelLinAlg.

Definition is_tint (f : R -> R) (l : R) : Prop :=
  is_RInt_gen f (Rbar_locally m_infty) (Rbar_locally p_infty) l.

(** Replace coordinate [k] of a point. *)
Definition upd (x : pt) (k : nat) (t : R) : pt := fun i => if Nat.eqb i k then t else x i.

Fixpoint is_tintN (n : nat) (f : pt -> R) (base : pt) (l : R) : Prop :=
  match n with
  | O => f base = l
  | S m => exists g : R -> R,
      (forall t, is_tintN m f (upd base m t) (g t)) /\ is_tint g l
  end.

(** Iterated integral over the listed coordinates, the first one outermost. *)
Fixpoint is_tintL (qs : list nat) (f : pt -> R) (base : pt) (l : R) : Prop :=
  match qs with
  | [] => f base = l
  | q :: rest => exists g : R -> R,
      (forall t, is_tintL rest f (upd base q t) (g t)) /\ is_tint g l
  end.

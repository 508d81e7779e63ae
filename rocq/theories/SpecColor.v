(** What is expected of colours. *)
From Verif Require Import Base ModelColor.
Open Scope R_scope.

Definition channels (c : rgb) : list R := [c_r c; c_g c; c_b c].
Definition valid_rgb (c : rgb) : Prop := forall x, In x (channels c) -> 0 <= x <= 1.
Definition grey (x : R) : rgb := mkRGB x x x.
(** [d] is nowhere lighter than [c]. *)
Definition darker (c d : rgb) : Prop := c_r d <= c_r c /\ c_g d <= c_g c /\ c_b d <= c_b c.
(** Largest and smallest component. *)
Definition brightest (c : rgb) (v : R) : Prop := In v (channels c) /\ forall x, In x (channels c) -> x <= v.
Definition faintest (c : rgb) (u : R) : Prop := In u (channels c) /\ forall x, In x (channels c) -> u <= x.

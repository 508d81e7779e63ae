(** Vocabulary for contours of data. *)
From Verif Require Import Base ModelLinAlg ModelUtils.
Open Scope R_scope.
Notation length := List.length.
(** The number [x] is in the bin [i]: lower edge included, the upper one only for the last bin. *)
Definition within (e : list R) (i : nat) (x : R) : Prop :=
  nth i e 0 <= x /\ (x < nth (S i) e 0 \/ S (S i) = length e /\ x = nth (S i) e 0).
(** The weight [w] collected from the data with the property [P]. *)
Inductive collected (P : R * R -> Prop) : list (R * R) -> list R -> R -> Prop :=
| collected_nil : collected P [] [] 0
| collected_hit : forall p ps x xs w, P p -> collected P ps xs w -> collected P (p :: ps) (x :: xs) (x + w)
| collected_miss : forall p ps x xs w, ~ P p -> collected P ps xs w -> collected P (p :: ps) (x :: xs) w.
(** The weights of the bins. *)
Definition bin_weights (ex ey : list R) (data : list (R * R)) (ws : list R) (w : nat -> nat -> R) : Prop :=
  forall i j, (S i < length ex)%nat -> (S j < length ey)%nat -> collected (fun p => within ex i (fst p) /\ within ey j (snd p)) data ws (w i j).
Definition bin_area (ex ey : list R) (i j : nat) : R := (nth (S i) ex 0 - nth i ex 0) * (nth (S j) ey 0 - nth j ey 0).
(** The weight in the bins chosen by [sel], and in all of them. *)
Definition bins_weight (ex ey : list R) (w : nat -> nat -> R) (sel : nat -> nat -> bool) : R :=
  rsum (length ex - 1) (fun i => rsum (length ey - 1) (fun j => if sel i j then w i j else 0)).
Definition grid_weight (ex ey : list R) (w : nat -> nat -> R) : R := bins_weight ex ey w (fun _ _ => true).
(** The density of a bin. *)
Definition bin_density (ex ey : list R) (w : nat -> nat -> R) (i j : nat) : R := w i j / (bin_area ex ey i j * grid_weight ex ey w).
(** The weight in the bins denser than [v]. *)
Definition denser (ex ey : list R) (w : nat -> nat -> R) (v : R) : R := bins_weight ex ey w (fun i j => Rltb v (bin_density ex ey w i j)).
(** All bins have the area [A]. *)
Definition equal_areas (ex ey : list R) (A : R) : Prop :=
  forall i j, (S i < length ex)%nat -> (S j < length ey)%nat -> bin_area ex ey i j = A.

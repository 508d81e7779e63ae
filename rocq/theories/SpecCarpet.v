(** Vocabulary for the carpet: the data coordinate and the ordinate of a drawn point. *)
From Verif Require Import Base ModelUtils SpecUtils.
Open Scope R_scope.
Definition data_of (rotate : bool) (p : R * R) : R := if rotate then snd p else fst p.
Definition ordinate (rotate : bool) (p : R * R) : R := if rotate then fst p else snd p.
(** The extent of a non-empty list of numbers. *)
Definition spans (ys : list R) (lo hi : R) : Prop := In lo ys /\ In hi ys /\ forall y, In y ys -> lo <= y <= hi.
(** Baseline [a] and spread [s] of the ordinates: as given; one from the other; or from the upper limit [top] of the axis. *)
Definition placed (top : R) (ystd yave : option R) (a s : R) : Prop :=
  match ystd, yave with
  | Some s', Some a' => s = s' /\ a = a'
  | Some s', None => s = s' /\ a = -5 * s'
  | None, Some a' => s = Rabs a' / 5 /\ a = a'
  | None, None => s = top / 50 /\ a = - top / 10
  end.
(** The values drawn: all, or those chosen if there are more than the limit. *)
Definition shown (sel : nat -> nat -> list nat) (limit : option nat) (xx l : list R) : Prop :=
  ((forall k, limit = Some k -> (List.length xx <= k)%nat) -> l = xx)
  /\ (forall k, limit = Some k -> (k < List.length xx)%nat -> l = map (fun i => nth i xx 0) (sel (List.length xx) k)).
Definition all_equal (l : list R) : Prop := forall x y, In x l -> In y l -> x = y.
(** The root of the mean square distance from the mean. *)
Definition spread_of (l : list R) (s : R) : Prop := 0 <= s /\
  exists mu, INR (List.length l) * mu = lsum l /\ INR (List.length l) * (s * s) = sumf (fun x => (x - mu) * (x - mu)) l.

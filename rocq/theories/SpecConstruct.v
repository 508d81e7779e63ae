(** Vocabulary for extrema arguments. *)
From Verif Require Import Base ModelLinAlg ModelKernels ModelKDE ModelExtrema ModelReflect.
Open Scope R_scope.

Definition is_pair (e : relem) : Prop := exists k a b, e = ESeq k [a; b].
Definition is_scalar (e : relem) : Prop := exists v, e = EAtom v.
Definition is_number (e : relem) : Prop := exists v, e = EAtom v /\ v <> VNone.

(** A None that stands in a tuple cannot be replaced: in a pair, or as the entry of a dimension. *)
Definition stuck_pair (k : seqk) (a b : pyv) : Prop := k = KTuple /\ (a = VNone \/ b = VNone).
Definition stuck_entry (ko : seqk) (e : relem) : Prop :=
  (ko = KTuple /\ e = EAtom VNone) \/ exists k a b, e = ESeq k [a; b] /\ stuck_pair k a b.

(** One pair for all dimensions; or one entry (None or a pair) per dimension, not all None. *)
Definition flat_pair (l : list relem) : Prop := exists a b, l = [EAtom a; EAtom b].
Definition per_dimension (n : nat) (l : list relem) : Prop :=
  length l = n /\ (forall e, In e l -> e = EAtom VNone \/ is_pair e) /\ exists e, In e l /\ is_pair e.

Definition readable (n : nat) (arg : rarg) : Prop :=
  match arg with
  | RNone => True
  | RFalse | RTrue | RNum _ => False
  | RSeq k l => (exists a b, l = [EAtom a; EAtom b] /\ ~ stuck_pair k a b)
                \/ (per_dimension n l /\ forall e, In e l -> ~ stuck_entry k e)
  end.
(** Arguments refused with a ValueError: the wrong shape, without numbers among entries that are sequences. *)
Definition bad_shape (n : nat) (arg : rarg) : Prop :=
  exists k l, arg = RSeq k l /\
    (((forall e, In e l -> is_scalar e) /\ length l <> 2%nat)
     \/ ((exists e, In e l /\ ~ is_scalar e) /\
         (length l <> n \/ ((forall e, In e l -> ~ is_number e) /\ exists k' s, In (ESeq k' s) l /\ length s <> 2%nat)))).

(** The value of one end: given, or taken from the data. *)
Definition num_of (v : pyv) (r : R) : Prop :=
  match v with VNone => False | VNum q => r = q | VBool true => r = 1 | VBool false => r = 0 end.
Definition end_is (v : pyv) (dflt r : R) : Prop := (v = VNone /\ r = dflt) \/ num_of v r.

(** Boundaries from which the extrema can be made: none at all; a pair for one dimension; at least one limited dimension and no
    None in a tuple; or, by the accident of its length two, a list of two Nones. *)
Definition no_limits (l : list relem) : Prop := forall e, In e l -> e = EAtom VNone.
Definition gives_extrema (n : nat) (refl : rarg) : Prop :=
  match refl with
  | RNone | RFalse | RTrue => True
  | RNum _ => False
  | RSeq k l => (n = 1%nat /\ flat_pair l)
                \/ (~ no_limits l /\ forall e, In e l -> ~ stuck_entry k e)
                \/ (n = 2%nat /\ k = KList /\ no_limits l)
  end.

(** Specification vocabulary for reflect arguments. *)
From Verif Require Import Base ModelLinAlg ModelKernels ModelKDE ModelExtrema ModelReflect.
Open Scope R_scope.

(** [lo] is the smallest, [hi] the largest value of coordinate [i]. *)
Definition is_min (data : list pt) (i : nat) (m : R) : Prop :=
  (exists p, In p data /\ p i = m) /\ forall p : pt, In p data -> m <= p i.
Definition is_max (data : list pt) (i : nat) (m : R) : Prop :=
  (exists p, In p data /\ p i = m) /\ forall p : pt, In p data -> p i <= m.

(** What one bound of a pair stands for: None no boundary, True the padded data limit, otherwise the
    number itself (False and, after numpy's conversion, True are the numbers 0 and 1). *)
Definition means_lo (data : list pt) (i : nat) (v : pyv) (o : option R) : Prop :=
  match v with
  | VNone => o = None
  | VBool true => exists m, is_min data i m /\ o = Some (m * (1 - num_pad))
  | VBool false => o = Some 0
  | VNum r => o = Some r
  end.
Definition means_hi (data : list pt) (i : nat) (v : pyv) (o : option R) : Prop :=
  match v with
  | VNone => o = None
  | VBool true => exists m, is_max data i m /\ o = Some (m * (1 + num_pad))
  | VBool false => o = Some 0
  | VNum r => o = Some r
  end.

(** What one entry of a reflect argument stands for. *)
Inductive means (data : list pt) (i : nat) : relem -> option bnd -> Prop :=
| means_none : means data i (EAtom VNone) None
| means_true a b : means_lo data i (VBool true) a -> means_hi data i (VBool true) b ->
    means data i (EAtom (VBool true)) (Some (a, b))
| means_pair k u v a b : means_lo data i u a -> means_hi data i v b ->
    means data i (ESeq k [u; v]) (Some (a, b)).

(** Bounds in increasing order, when both are present. *)
Definition ordered (ob : option bnd) : Prop :=
  match ob with Some (Some lo, Some hi) => lo < hi | _ => True end.

(** An argument that asks to write into a tuple. *)
Definition entry_tuple_true (ko : seqk) (e : relem) : Prop :=
  (ko = KTuple /\ e = EAtom (VBool true)) \/ (exists l, e = ESeq KTuple l /\ In (VBool true) l).

(** No True anywhere. *)
Definition entry_no_true (e : relem) : Prop :=
  e <> EAtom (VBool true) /\ forall k l, e = ESeq k l -> ~ In (VBool true) l.
Definition no_true (arg : rarg) : Prop :=
  match arg with RSeq _ l => forall e, In e l -> entry_no_true e | _ => True end.

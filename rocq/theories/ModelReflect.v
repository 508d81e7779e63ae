(** Model of the handling of [reflect] arguments: kalepy/kernels.py:696-765 [_check_reflect], its
    call in KDE.__init__ (kde.py:179) and the preparation in KDE.density (kde.py:340-381). *)
From Verif Require Import Base ModelLinAlg ModelKernels ModelKDE ModelExtrema.
Open Scope R_scope.

(** Python values occurring inside reflect arguments.  A numeric numpy array behaves like a list of
    numbers. *)
Inductive pyv := VNone | VBool (b : bool) | VNum (r : R).
Inductive seqk := KList | KTuple.
Inductive relem := EAtom (v : pyv) | ESeq (k : seqk) (l : list pyv).
Inductive rarg := RNone | RFalse | RTrue | RNum (r : R) | RSeq (k : seqk) (l : list relem).

(** [v is True]. *)
Definition is_true (v : pyv) : bool := match v with VBool true => true | _ => false end.
Definition is_none (v : pyv) : bool := match v with VNone => true | _ => false end.
Definition v_num (v : pyv) : R := match v with VNum r => r | VBool true => 1 | _ => 0 end.
Definition v_opt (v : pyv) : option R := match v with VNone => None | _ => Some (v_num v) end.

(** kernels.py:736, 739, 741: automatic bounds of dimension [ii]. *)
Definition auto_lo (data : list pt) (ii : nat) : R := lmin (coords ii data) * (1 - num_pad).
Definition auto_hi (data : list pt) (ii : nat) : R := lmax (coords ii data) * (1 + num_pad).

(** kernels.py:723-731: which entries are acceptable; [None] stands for the caught TypeError of
    [len(ref)]. *)
Definition entry_good (e : relem) : option bool :=
  match e with
  | EAtom v => if orb (is_none v) (is_true v) then Some true else None
  | ESeq _ l => Some (Nat.eqb (length l) 2)
  end.
Definition goods (l : list relem) : bool :=
  forallb (fun e => match entry_good e with Some b => b | None => false end) l.

(** kernels.py:743-745: order check of one (already filled) entry. *)
Definition order_check (a b : pyv) : res unit :=
  if andb (negb (orb (is_none a) (is_none b))) (Rleb (v_num b) (v_num a)) then Err ValueError else Ok tt.

(** Replacing True in a pair, kernels.py:737-741.  Assigning to a tuple is a TypeError.
    [np.min] of an empty array is a ValueError. *)
Definition fill_true (k : seqk) (data : list pt) (auto : R) (v : pyv) : pyv * res unit :=
  if is_true v then
    match data with
    | [] => (v, Err ValueError)
    | _ :: _ => match k with KTuple => (v, Err TypeError) | KList => (VNum auto, Ok tt) end
    end
  else (v, Ok tt).

(** Body of the loop kernels.py:734-745 for entry [e] of dimension [ii]; [ko] is the kind of the
    outer sequence.  Returns the entry after the call and the outcome. *)
Definition check_entry (ko : seqk) (data : list pt) (ii : nat) (e : relem) : relem * res unit :=
  match e with
  | EAtom v =>
      if is_true v then
        match data with
        | [] => (e, Err ValueError)
        | _ :: _ =>
            match ko with
            | KTuple => (e, Err TypeError)
            | KList =>
                let a := VNum (auto_lo data ii) in let b := VNum (auto_hi data ii) in
                (ESeq KList [a; b], order_check a b)
            end
        end
      else (e, Ok tt)
  | ESeq k [a; b] =>
      match fill_true k data (auto_lo data ii) a with
      | (a', Err x) => (ESeq k [a'; b], Err x)
      | (a', Ok _) =>
          match fill_true k data (auto_hi data ii) b with
          | (b', Err x) => (ESeq k [a'; b'], Err x)
          | (b', Ok _) => (ESeq k [a'; b'], order_check a' b')
          end
      end
  | _ => (e, Ok tt)
  end.

(** The loop over dimensions; entries after a failing one stay as they are. *)
Fixpoint check_loop (ko : seqk) (data : list pt) (ii : nat) (l : list relem) : list relem * res unit :=
  match l with
  | [] => ([], Ok tt)
  | e :: rest =>
      match check_entry ko data ii e with
      | (e', Err x) => (e' :: rest, Err x)
      | (e', Ok _) => let r := check_loop ko data (S ii) rest in (e' :: fst r, snd r)
      end
  end.

(** The specification read off a checked list by Kernel.density. *)
Definition entry_spec (e : relem) : option bnd :=
  match e with ESeq _ [a; b] => Some (v_opt a, v_opt b) | _ => None end.

(** [np.atleast_2d] of a pair of scalars (kernels.py:714-715): with a None the array has dtype object
    and keeps its elements, otherwise it is numeric (or boolean) and holds no Python [True]. *)
Definition coerce_pair (a b : pyv) : pyv * pyv :=
  if orb (is_none a) (is_none b) then (a, b) else (VNum (v_num a), VNum (v_num b)).

(** kernels.py:696-765 [_check_reflect] for [n]-dimensional data; returns the caller's object after
    the call and the outcome.  The helper branch (only warnings) is left out.  For 1-D data and a
    sequence of length two that does not consist of scalars [np.atleast_2d] gives an array of length
    two or raises ValueError (numpy >= 1.24); both end in ValueError. *)
Definition check_reflect (n : nat) (data : list pt) (arg : rarg) : rarg * res (option reflspec) :=
  match arg with
  | RNone => (arg, Ok None)
  | RFalse => (arg, Ok None)
  | RNum _ => (arg, Err TypeError)
  | RTrue =>
      let r := check_loop KList data 0 (repeat (EAtom (VBool true)) n) in
      (arg, do _ <- snd r ;; Ok (Some (map entry_spec (fst r))))
  | RSeq k l =>
      if andb (Nat.eqb (length l) 2) (Nat.eqb n 1) then
        match l with
        | [EAtom a; EAtom b] =>
            let ab := coerce_pair a b in
            let r := check_loop KList data 0 [ESeq KList [fst ab; snd ab]] in
            (arg, do _ <- snd r ;; Ok (Some (map entry_spec (fst r))))
        | _ => (arg, Err ValueError)
        end
      else if negb (Nat.eqb (length l) n) then (arg, Err ValueError)
      else if negb (goods l) then (arg, Err ValueError)
      else
        let r := check_loop k data 0 l in
        (RSeq k (fst r), do _ <- snd r ;; Ok (Some (map entry_spec (fst r))))
  end.

(** kde.py:135-235: construction with a raw reflect argument, checked first (kde.py:179). *)
Definition kde_new (n : nat) (data : list pt) (w : warg) (b : bwarg) (diagonal : bool)
    (rescale : option R) (d : dist) (cov_arg : option mat) (neff_arg : option R) (arg : rarg)
  : rarg * res kde :=
  let r := check_reflect n data arg in
  (fst r, do spec <- snd r ;; kde_init n data w b diagonal rescale d cov_arg neff_arg spec).

(** The reflect argument of KDE.density for a KDE of dimension [n] and data selected to [ddim] rows
    (kde.py:353-365, 381): [len] of a boolean or number is a TypeError, a wrong length a ValueError
    except for a pair of scalars with 1-D data; then [_check_reflect]. *)
Definition scalar_entry (e : relem) : bool := match e with EAtom _ => true | _ => false end.
Definition density_reflect (n ddim : nat) (data : list pt) (arg : rarg) : rarg * res (option reflspec) :=
  match arg with
  | RNone => (arg, Ok None)
  | RFalse | RTrue | RNum _ => (arg, Err TypeError)
  | RSeq k l =>
      if orb (Nat.eqb (length l) ddim)
             (andb (Nat.eqb n 1) (andb (Nat.eqb (length l) 2) (forallb scalar_entry l)))
      then check_reflect ddim data arg
      else (arg, Err ValueError)
  end.

(** KDE.density with a raw reflect argument. *)
Definition density_call (K : kde) (prob : bool) (pdim : nat) (arg : rarg) (p : parg)
  : rarg * res (pt -> R) :=
  match resolve_params K p with
  | Err e => (arg, Err e)
  | Ok ops =>
      let data := match ops with None => kd_data K | Some ps => map (select ps) (kd_data K) end in
      let ddim := match ops with None => kd_ndim K | Some ps => length ps end in
      let r := density_reflect (kd_ndim K) ddim data arg in
      (fst r, do spec <- snd r ;; kde_density K prob pdim spec p)
  end.

(** The checked form of an accepted specification, as a Python list (what KDE.__init__
    stores, kde.py:185).  Arrays, tuples and lists of numbers behave alike here. *)
Definition opt_v (o : option R) : pyv := match o with None => VNone | Some r => VNum r end.
Definition embed_entry (ob : option bnd) : relem :=
  match ob with None => EAtom VNone | Some (a, b) => ESeq KList [opt_v a; opt_v b] end.
Definition embed (spec : reflspec) : rarg := RSeq KList (map embed_entry spec).

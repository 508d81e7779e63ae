(** Model of the last part of KDE.__init__ (kde.py:237-262): the extrema, from an [extrema] argument or
    from the boundaries, as Python objects: lists can be assigned to, tuples cannot. *)
From Verif Require Import Base ModelLinAlg ModelKernels ModelKDE ModelExtrema ModelReflect.
Open Scope R_scope.

(** np.shape(tt) == () (utils.py:561). *)
Definition scalar_elem (e : relem) : bool := match e with EAtom _ => true | ESeq _ _ => false end.

(** utils.py:1260-1262 for one pair of the kind [k]: assigning to a tuple is a TypeError. *)
Definition fill_pair (k : seqk) (a b : pyv) (d : R * R) : res (R * R) :=
  match k with
  | KTuple => if orb (is_none a) (is_none b) then Err TypeError else Ok (v_num a, v_num b)
  | KList => Ok (fill (v_opt a) (v_opt b) d)
  end.

(** utils.py:1256-1262 for one entry, [ko] the kind of the outer sequence. *)
Definition fill_entry (ko : seqk) (e : relem) (d : R * R) : res (R * R) :=
  match e with
  | EAtom _ => match ko with KTuple => Err TypeError | KList => Ok d end
  | ESeq k [a; b] => fill_pair k a b d
  | ESeq _ _ => Err ValueError
  end.

(** utils.py:1203-1274 [_parse_extrema] with params None; [dext] the extrema of the data, at least one dimension.
    A flat pair becomes references to one object (1238-1239): a None is filled in by the first dimension; for a tuple this is a
    TypeError.  In the list comprehension of line 1245 a number has no [len]: TypeError, wherever it stands. *)
Definition parse_extrema_py (dext : list (R * R)) (arg : rarg) : res (list (R * R)) :=
  match arg with
  | RNone => Ok dext
  | RFalse | RTrue | RNum _ => Err TypeError
  | RSeq k l =>
      if forallb scalar_elem l then
        match l, dext with
        | [EAtom a; EAtom b], d0 :: _ => do p <- fill_pair k a b d0 ;; Ok (map (fun _ => p) dext)
        | _, _ => Err ValueError
        end
      else if negb (Nat.eqb (length l) (length dext)) then Err ValueError
      else if existsb (fun e => match e with EAtom v => negb (is_none v) | _ => false end) l then Err TypeError
      else if existsb (fun e => match e with ESeq _ s => negb (Nat.eqb (length s) 2) | _ => false end) l then Err ValueError
      else mapM (fun de => fill_entry k (snd de) (fst de)) (combine dext l)
  end.

(** The object that [_check_reflect] returns (kernels.py:696-765): the caller's own sequence, or a new list or array for True and
    for a pair with one-dimensional data. *)
Definition reflect_object (n : nat) (data : list pt) (arg : rarg) : rarg :=
  match arg with
  | RTrue => RSeq KList (fst (check_loop KList data 0 (repeat (EAtom (VBool true)) n)))
  | RFalse => RNone
  | RSeq k l =>
      if andb (Nat.eqb (length l) 2) (Nat.eqb n 1) then
        match l with
        | [EAtom a; EAtom b] =>
            let ab := coerce_pair a b in RSeq KList (fst (check_loop KList data 0 [ESeq KList [fst ab; snd ab]]))
        | _ => arg
        end
      else RSeq k (fst (check_loop k data 0 l))
  | _ => arg
  end.

(** kde.py:258-261: which object gives the extrema. *)
Definition extrema_object (user refl : rarg) : rarg := match user with RNone => refl | _ => user end.

(** The effective extrema (kde.py:242-256) if they are finite; otherwise only their number matters here. *)
Definition eff_or (K : kde) (ppf : R -> R) : option (list (R * R)) :=
  match kd_kernel K with
  | None => None
  | Some kern => match ext_out (k_dist kern) (kd_neff K) ppf with
                 | None => None
                 | Some out => Some (map sort_pair (eff_extrema (kd_ndim K) (k_matrix kern) (kd_data K) out))
                 end
  end.

(** kde.py:134-270 [KDE.__init__] as a whole: the KDE, and its extrema ([None]: some are not finite).  [user] is the [extrema] argument.
    (The kernel is chosen before the extrema, kde.py:231; see [kde_call].) *)
Definition kde_construct (n : nat) (data : list pt) (w : warg) (b : bwarg) (diagonal : bool) (rescale : option R) (d : dist)
    (cov_arg : option mat) (neff_arg : option R) (refl user : rarg) (ppf : R -> R) : res (kde * option (list (R * R))) :=
  do K <- snd (kde_new n data w b diagonal rescale d cov_arg neff_arg refl) ;;
  let obj := extrema_object user (reflect_object n data refl) in
  match eff_or K ppf with
  | Some eff => do e <- parse_extrema_py eff obj ;; Ok (K, Some e)
  | None => do _ <- parse_extrema_py (repeat (0, 0) n) obj ;; Ok (K, None)
  end.

(** Small helpers of kalepy/utils.py: isjagged, jshape, isinteger, bins, run_if. *)
From Coq Require Import String Ascii ZArith.
From Verif Require Import Base ModelUtils ModelNd ModelApi.
Open Scope R_scope.
Notation length := List.length.

(* ------------------------------------------------------------ isjagged, jshape *)
(** The beginning two shapes share. *)
Fixpoint common (a b : list nat) : list nat :=
  match a, b with
  | x :: a, y :: b => if Nat.eqb x y then x :: common a b else []
  | _, _ => []
  end.
(** Shape of np.asarray(t, dtype=object): as many axes as all parts agree on; the elements may be lists. *)
Fixpoint oshape {A} (t : tree A) : list nat :=
  match t with
  | Leaf _ => []
  | Node l => length l :: match map oshape l with [] => [] | s :: rest => fold_left common rest s end
  end.
(** An object array of [d] axes made of the nested list [t]; [d = 0]: the list itself.  utils.py:579-586 [flatlen] of it: iterating gives arrays of
    [d - 1] axes, whose np.shape is known; the elements of the last axis are lists or scalars. *)
Fixpoint flatlen_at {A} (strict : bool) (d : nat) (t : tree A) : res nat :=
  match d with
  | O => flatlen strict t
  | S d' =>
      match t with
      | Leaf _ => Ok 1%nat
      | Node l =>
          do one <- (match d' with O => really1d strict (Node l) | S _ => Ok (Nat.eqb (length l) 0) end) ;;
          if one then Ok (length l) else do parts <- mapM (flatlen_at strict d') l ;; Ok (fold_right Nat.add 0%nat parts)
      end
  end.
(** utils.py:588-594 [isjagged] of a nested list: np.size of a jagged list raises ValueError for numpy 1.24 and later ([strict]). *)
Definition isjagged {A} (strict : bool) (t : tree A) : res bool :=
  match t with
  | Leaf _ => Ok false
  | Node _ =>
      do sz <- match tshape t with None => if strict then Err ValueError else Ok (size_of_shape (oshape t)) | Some _ => Ok (size_of_shape (oshape t)) end ;;
      do n <- flatlen strict t ;; Ok (negb (Nat.eqb sz n))
  end.
(** ... of an object array of [d] axes (none: np.iterable fails, one element). *)
Definition isjagged_array {A} (strict : bool) (d : nat) (t : tree A) : res bool :=
  match d with
  | O => Ok false
  | S _ => do n <- flatlen_at strict d t ;; Ok (negb (Nat.eqb (size_of_shape (firstn d (oshape t))) n))
  end.
(** The result of jshape: a shape, or a shape with the results for the parts. *)
Inductive jsh := Regular (sh : list nat) | Jagged (sh : list nat) (parts : list jsh).
(** utils.py:624-641 [jshape] without printing; [d = 0]: a list or a scalar, otherwise an object array (a part of one) of [d] axes, which np.asarray
    leaves as it is. *)
Fixpoint jshape_at {A} (strict : bool) (d : nat) (t : tree A) : res jsh :=
  let d1 := match d with O => length (oshape t) | S _ => d end in
  do j <- isjagged_array strict d1 t ;;
  let sh := firstn d1 (oshape t) in
  if negb j then Ok (Regular sh) else
  match t with
  | Leaf _ => Ok (Regular sh)
  | Node l =>
      do parts <- (fix go (l : list (tree A)) : res (list jsh) :=
                     match l with [] => Ok [] | s :: r => do a <- jshape_at strict (d1 - 1) s ;; do b <- go r ;; Ok (a :: b) end) l ;;
      Ok (Jagged sh parts)
  end.
Definition jshape {A} (strict : bool) (t : tree A) : res jsh := jshape_at strict 0 t.

(* ------------------------------------------------------------ isinteger *)
(** Python scalars, numpy's kinds of types. *)
Inductive scalar := SInt (z : Z) | SBool | SFloat | SComplex | SStr | SNone.
Inductive kind := KBool | KInt | KUint | KFloat | KComplex | KStr | KObject.
(** np.asarray of one scalar: integers of 64 bits with sign, without sign if too large, objects beyond. *)
Definition scalar_kind (s : scalar) : kind :=
  match s with
  | SInt z => if andb (- 2 ^ 63 <=? z)%Z (z <? 2 ^ 63)%Z then KInt else if andb (0 <=? z)%Z (z <? 2 ^ 64)%Z then KUint else KObject
  | SBool => KBool | SFloat => KFloat | SComplex => KComplex | SStr => KStr | SNone => KObject
  end.
Definition kind_rank (k : kind) : nat :=
  match k with KBool => 0 | KInt => 1 | KUint => 2 | KFloat => 3 | KComplex => 4 | KStr => 5 | KObject => 6 end%nat.
(** numpy's promotion of two types; integers of 64 bits with and without sign: floating point. *)
Definition promote (a b : kind) : kind :=
  match a, b with
  | KInt, KUint | KUint, KInt => KFloat
  | _, _ => if Nat.leb (kind_rank a) (kind_rank b) then b else a
  end.
(** The argument: a scalar, a sequence of scalars, or a numpy array of a kind. *)
Inductive intarg := IScalar (s : scalar) | ISeq (l : list scalar) | IArray (k : kind).
Definition arg_kind (v : intarg) : kind :=
  match v with
  | IScalar s => scalar_kind s
  | ISeq [] => KFloat
  | ISeq (s :: l) => fold_left (fun k s => promote k (scalar_kind s)) l (scalar_kind s)
  | IArray k => k
  end.
(** np.isscalar; None is none. *)
Definition is_scalar (v : intarg) : bool := match v with IScalar SNone => false | IScalar _ => true | _ => false end.
(** utils.py:597-621 [isinteger]: numpy's booleans are no numbers.Integral. *)
Definition isinteger (v : intarg) (iterable : bool) : bool :=
  if andb (negb (is_scalar v)) (negb iterable) then false
  else match arg_kind v with KInt | KUint => true | _ => false end.

(* ------------------------------------------------------------ bins *)
(** utils.py:51-64 [bins] for np.linspace(a, b, num). *)
Definition bins (a b : R) (num : Z) : res (list R * list R * list R) :=
  if (num <? 0)%Z then Err ValueError else
  let xe := linspace a b (Z.to_nat num) in
  do xc <- midpoints (mkA [length xe] (fun idx => nth (nth 0 idx 0%nat) xe 0)) (Some [(-1)%Z]) ;;
  Ok (xe, flatten_nd xc, diff xe).

(* ------------------------------------------------------------ run_if *)
(** [sub in s]. *)
Definition contains (sub s : string) : bool := match String.index 0 sub s with Some _ => true | None => false end.
Definition lower (s : string) : string := string_of_list_ascii (map lower_c (list_ascii_of_string s)).
(** utils.py:1179-1190 [_python_environment]; [ipy]: str(type(get_ipython())), None if there is no get_ipython.  The last case is Python's None. *)
Definition python_environment (ipy : option string) : option string :=
  match ipy with
  | None => Some "script"%string
  | Some s => if contains "zmqshell" (lower s) then Some "notebook"%string else if contains "terminal" (lower s) then Some "ipython"%string else None
  end.
(** What is called: the function, the alternative, or nothing. *)
Inductive called := CallFunc | CallOther | CallNone.
(** utils.py:652-659 [run_if]; [other]: whether an alternative is given. *)
Definition run_if (ipy : option string) (target : string) (other : bool) : res called :=
  match python_environment ipy with
  | None => Err AttributeError
  | Some env => Ok (if String.prefix target env then CallFunc else if other then CallOther else CallNone)
  end.
(** utils.py:662-669 *)
Definition run_if_notebook (ipy : option string) (other : bool) : res called := run_if ipy "notebook" other.
Definition run_if_script (ipy : option string) (other : bool) : res called := run_if ipy "script" other.
(** plot.py:2277-2278 [nbshow]: plt.show, otherwise plt.close('all'). *)
Definition nbshow (ipy : option string) : res called := run_if_notebook ipy true.

(** Model of the extrema of a KDE: kalepy/kde.py:237-262 and kalepy/utils.py:1203-1274
    [_parse_extrema]. *)
From Verif Require Import Base ModelLinAlg ModelKernels ModelKDE.
Open Scope R_scope.

(** np.min / np.max of a non-empty list. *)
Definition lmin (l : list R) : R := match l with [] => 0 | a :: t => fold_left Rmin t a end.
Definition lmax (l : list R) : R := match l with [] => 0 | a :: t => fold_left Rmax t a end.

(** kalepy/__init__.py:44 [_NUM_PAD]. *)
Definition num_pad : R := / 100000000.

(** Coordinate [i] of all data points: row [i] of the dataset. *)
Definition coords (i : nat) (data : list pt) : list R := map (fun p => p i) data.

(** kde.py:242-249 [out].  [ppf] is scipy.stats.norm.ppf.  For an infinite kernel and neff <= 1 the
    value is -inf or NaN: [None]. *)
Definition ext_out (d : dist) (neff : R) (ppf : R -> R) : option R :=
  if finite d then Some (1 + num_pad)
  else if Rleb neff 1 then None
  else Some (ppf (1 - 1 / neff) * (12 / 10)).

(** kde.py:252-256 [eff_extrema]. *)
Definition eff_extrema (n : nat) (M : mat) (data : list pt) (out : R) : list (R * R) :=
  map (fun i => (lmin (coords i data) - sqrt (M i i) * out, lmax (coords i data) + sqrt (M i i) * out))
      (seq 0 n).

(** One element of an [extrema] argument: None, a number, a list of length two, a list of another
    length. *)
Inductive exelt := XNone | XNum (r : R) | XPair (lo hi : option R) | XOther.

Definition x_scalar (e : exelt) : bool := match e with XNone | XNum _ => true | _ => false end.

Definition fill (lo hi : option R) (d : R * R) : R * R :=
  (match lo with Some v => v | None => fst d end, match hi with Some v => v | None => snd d end).

Definition x_opt (e : exelt) : option R := match e with XNum r => Some r | _ => None end.

(** utils.py:1203-1274 [_parse_extrema] with params None.  [dext]: utils.py:1225
    [[minmax(dd) for dd in data]].  A flat pair (1240-1241) becomes a list of references to one and
    the same list object, so filling None for the first dimension fills it for all. *)
Definition parse_extrema (dext : list (R * R)) (e : option (list exelt)) : res (list (R * R)) :=
  let n := length dext in
  match e with
  | None => Ok dext
  | Some l =>
      if forallb x_scalar l then
        match l with
        | [a; b] =>
            Ok (match dext with
                | [] => []
                | d0 :: _ => let p := fill (x_opt a) (x_opt b) d0 in map (fun _ => p) dext
                end)
        | _ => Err ValueError
        end
      else if Nat.eqb (length l) n then
        if existsb (fun e => match e with XNum _ => true | _ => false end) l then Err TypeError
        else if existsb (fun e => match e with XOther => true | _ => false end) l then Err ValueError
        else Ok (map (fun de => match snd de with
                                | XPair lo hi => fill lo hi (fst de)
                                | _ => fst de
                                end) (combine dext l))
      else Err ValueError
  end.

(** minmax (utils.py:374-426) of a pair without options: sorted. *)
Definition sort_pair (p : R * R) : R * R := (Rmin (fst p) (snd p), Rmax (fst p) (snd p)).

(** A checked reflect specification as an extrema argument (kde.py:258-259). *)
Definition refl_extrema (r : reflspec) : list exelt :=
  map (fun o => match o with None => XNone | Some b => XPair (fst b) (snd b) end) r.

(** kde.py:237-262: [KDE.extrema].  [None]: non-finite intermediate values, not modelled. *)
Definition kde_extrema (K : kde) (ppf : R -> R) (user : option (list exelt))
  : option (res (list (R * R))) :=
  match kd_kernel K with
  | None => None
  | Some kern =>
      match ext_out (k_dist kern) (kd_neff K) ppf with
      | None => None
      | Some out =>
          let eff := eff_extrema (kd_ndim K) (k_matrix kern) (kd_data K) out in
          let e := match user with
                   | Some _ => user
                   | None => option_map refl_extrema (kd_reflect K)
                   end in
          Some (parse_extrema (map sort_pair eff) e)
      end
  end.

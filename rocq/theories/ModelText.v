(** Text output of arrays (kalepy/utils.py): array_str, stats, stats_str. *)
From Coq Require Import String ZArith.
From Verif Require Import Base ModelKDE ModelUtils ModelCarpet ModelSample ModelInt.
Open Scope R_scope.
Notation length := List.length.

(** An element of an array as array_str meets it: a number, or a row (array of more than one dimension). *)
Inductive elem := Number (x : R) | Row.
(** ", ".join(l) *)
Fixpoint join (l : list string) : string :=
  match l with [] => ""%string | [s] => s | s :: r => (s ++ ", " ++ join r)%string end.
(** Python's l[:k] and l[k:]; negative positions count from the end. *)
Definition position {A} (l : list A) (k : Z) : nat := if (k <? 0)%Z then Z.to_nat (Z.of_nat (length l) + k) else Z.to_nat k.
Definition upto {A} (l : list A) (k : Z) : list A := firstn (position l k) l.
Definition from {A} (l : list A) (k : Z) : list A := skipn (position l k) l.
(** utils.py:31-41 [_astr]; [fmt]: Python's format of a number with the given specification.  A row cannot be formatted with one: TypeError. *)
Definition astr (fmt : R -> string) (vals : list elem) : res string :=
  do t <- mapM (fun e => match e with Number x => Ok (fmt x) | Row => Err TypeError end) vals ;; Ok (join t).
(** utils.py:28-48 [array_str]. *)
Definition array_str (fmt : R -> string) (data : list elem) (num : option Z) : res string :=
  do rv <- match num with
           | None => astr fmt data
           | Some k =>
               if (Z.of_nat (length data) <=? 2 * k)%Z then astr fmt data
               else do a <- astr fmt (upto data k) ;; do b <- astr fmt (from data (- k)) ;; Ok (a ++ " ... " ++ b)%string
           end ;;
  Ok ("[" ++ rv ++ "]")%string.

(** An array: shape, the numbers in C order, whether its type is an integer type. *)
Record arr := mkArr { a_shape : list nat; a_vals : list R; a_int : bool }.
(** Iterating over the first axis; len() of an array without axes raises TypeError. *)
Definition elems (a : arr) : res (list elem) :=
  match a_shape a with [] => Err TypeError | [_] => Ok (map Number (a_vals a)) | n :: _ => Ok (repeat Row n) end.

(** The formats in use: "{:}", ".2e", "d", ".2f", or the one given. *)
Inductive style := General | Exponent | Decimal | Fixed | Given (s : string).
(** utils.py:1143-1162 [_guess_str_format_from_range] with the default precision and limit: no number different from zero: minmax returns None, np.fabs
    raises TypeError, which is caught. *)
Definition guess_format (vals : list R) (isint allow_int : bool) : style :=
  match filter (fun x => negb (Reqb x 0)) vals with
  | [] => General
  | x :: r =>
      let extr := map (fun v => log10 (Rabs v)) [vmin x r; vmax x r] in
      if orb (existsb (fun e => Rltb e (-2)) extr) (existsb (fun e => Rltb 2 e) extr) then Exponent
      else if andb isint allow_int then Decimal else Fixed
  end.

(** The argument [percs]: None, or numbers (a single one: a list of one, np.atleast_1d). *)
Inductive percarg := PcNone | PcList (l : list R).
(** utils.py:720-790 [stats_str]; [fm]: formatting of a number in a style; [fp]: "{:.0f}%" of a hundred times a number.  np.atleast_1d(None) is an array
    with one element (line 749, 752), which cannot be compared with numbers: TypeError in quantiles.  Simplifications: not empty if no percentiles are
    requested; log for positive numbers; a given format suits the numbers; one weight for each number, in C order. *)
Definition stats_str (sorter : list (R * R) -> list (R * R)) (fm : style -> R -> string) (fp : R -> string) (data : arr) (percs : percarg) (ave std : bool)
    (weights : option (list R)) (format : option string) (log label_log : bool) : res string :=
  let vals := if log then map log10 (a_vals data) else a_vals data in
  let isint := if log then false else a_int data in
  let flag := match percs with PcList [] => false | _ => true end in
  let st := match format with None => guess_format vals isint (negb (orb ave std)) | Some s => Given s end in
  let f := fm st in
  let t_ave := if ave then ("ave = " ++ f (np_mean vals) ++ (if orb std flag then ", " else ""))%string else ""%string in
  let t_std := if std then ("std = " ++ f (np_std vals) ++ (if flag then ", " else ""))%string else ""%string in
  do t_percs <-
    match percs with
    | PcList [] => Ok ""%string
    | PcNone => Err TypeError
    | PcList ps =>
        do tiles <- quantiles sorter vals (Some ps) weights false ;;
        let tiles := if isint then map put_int tiles else tiles in
        Ok ("(" ++ join (map f tiles) ++ ")" ++ ", for (" ++ join (map fp ps) ++ ")")%string
    end ;;
  Ok (t_ave ++ t_std ++ t_percs ++ (if andb log label_log then " (log values)" else ""))%string.
(** utils.py:720: the default percentages. *)
Definition default_percs : percarg := PcList [0; 16 / 100; 1 / 2; 84 / 100; 1].

(** The argument [sample] of stats: None or False, or a number. *)
(** utils.py:701-717 [stats]; [fs]: str of a shape. *)
Definition stats (sorter : list (R * R) -> list (R * R)) (fm : style -> R -> string) (fp : R -> string) (fs : list nat -> string) (data : arr)
    (shape : bool) (sample : option Z) (with_stats : bool) : res string :=
  let t1 := if shape then fs (a_shape data) else ""%string in
  do t2 <- match sample with
           | None => Ok ""%string
           | Some k => do el <- elems data ;; do t <- array_str (fm Exponent) el (Some k) ;; Ok (" - " ++ t)%string
           end ;;
  do t3 <- (if with_stats then do t <- stats_str sorter fm fp data default_percs false false None None false true ;; Ok (" - " ++ t)%string else Ok ""%string) ;;
  if andb (negb shape) (andb (match sample with None => true | Some _ => false end) (negb with_stats)) then Err ValueError
  else Ok (t1 ++ t2 ++ t3)%string.

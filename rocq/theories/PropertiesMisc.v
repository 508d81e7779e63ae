(** Properties C124-C127: helpers for nested lists, integers, bins and notebooks. *)
From Coq Require Import String ZArith.
From Verif Require Import Base ModelUtils ModelNd ModelApi ModelMisc SpecUtils SpecNd SpecNested SpecMisc ProofMisc.
Open Scope R_scope.
Notation length := List.length.

(** * C44, together *)
(** First the stretch, then the previous extrema, the limits last: the result is within the limits. *)
Theorem C44_order : forall data lo hi s pl ph ll lh, min_of data lo -> max_of data hi ->
  minmax data false (Some (Some pl, Some ph)) (StScalar s) StNone (Some (Some ll, Some lh))
    = Ok (Some (Some (Rmax ll (Rmin pl (lo - s * (hi - lo) / 2))), Some (Rmin lh (Rmax ph (hi + s * (hi - lo) / 2)))))
  /\ minmax data false (Some (Some pl, Some ph)) StNone StNone (Some (Some ll, Some lh)) = Ok (Some (Some (Rmax ll (Rmin pl lo)), Some (Rmin lh (Rmax ph hi)))).
Proof. exact minmax_order. Qed.
Print Assumptions C44_order.

(** Each of the four numbers may be None. *)
Theorem C44_one_sided : forall data lo hi pl lh, min_of data lo -> max_of data hi ->
  minmax data false (Some (Some pl, None)) StNone StNone (Some (None, Some lh)) = Ok (Some (Some (Rmin pl lo), Some (Rmin lh hi)))
  /\ minmax data false (Some (None, Some pl)) StNone StNone (Some (Some lh, None)) = Ok (Some (Some (Rmax lh lo), Some (Rmax pl hi))).
Proof. exact minmax_one_sided. Qed.
Print Assumptions C44_one_sided.

Example C44_order_example : min_of [2; 1; 3] 1 /\ max_of [2; 1; 3] 3.
Proof. split; (split; [cbn; tauto|intros x Hx; cbn in Hx; intuition lra]). Qed.

(** * C124 *)
(** Nested lists with two or more entries each, older numpy: jagged exactly if there is no shape. *)
Theorem C124_jagged_iff : forall A (t : tree A), lists_at_least 2 t -> (isjagged false t = Ok true <-> tshape t = None).
Proof. exact jagged_iff. Qed.
Print Assumptions C124_jagged_iff.

(** A regular nested list is never called jagged. *)
Theorem C124_regular : forall A (t : tree A) sh strict, tshape t = Some sh -> isjagged strict t = Ok false.
Proof. exact regular_never. Qed.
Print Assumptions C124_regular.

(** numpy 1.24 and later: ValueError for every jagged list. *)
Theorem C124_new : forall A (t : tree A), tshape t = None -> isjagged true t = Err ValueError.
Proof. exact jagged_new. Qed.
Print Assumptions C124_new.

(** With an empty list, or lists of one element, jagged lists can be missed. *)
Theorem C124_missed_refuted : exists t u : tree nat, tshape t = None /\ isjagged false t = Ok false /\ tshape u = None /\ isjagged false u = Ok false
  /\ t = Node [Node [Leaf 1; Leaf 2]; Node []]%nat /\ u = Node [Node [Leaf 1]; Leaf 2]%nat.
Proof. exact jagged_missed. Qed.
Print Assumptions C124_missed_refuted.

(** jshape of a regular list is its shape. *)
Theorem C124_jshape_regular : forall A (t : tree A) sh strict, tshape t = Some sh -> jshape strict t = Ok (Regular sh).
Proof. exact jshape_regular. Qed.
Print Assumptions C124_jshape_regular.

(** And with two or more entries everywhere only then. *)
Theorem C124_jshape_iff : forall A (t : tree A) sh, lists_at_least 2 t -> (jshape false t = Ok (Regular sh) <-> tshape t = Some sh).
Proof. exact jshape_iff. Qed.
Print Assumptions C124_jshape_iff.

(** Rows of different lengths: the number of rows and the length of each; if there are as many numbers as rows, just that number. *)
Theorem C124_jshape_rows : forall A (rows : list (list A)) r r' strict, In r rows -> In r' rows -> length r <> length r' ->
  jshape strict (rows_tree rows) = Ok (if Nat.eqb (length (concat rows)) (length rows) then Regular [length rows] else Jagged [length rows] (map (fun q => Regular [length q]) rows)).
Proof. exact jshape_rows. Qed.
Print Assumptions C124_jshape_rows.

(** So two rows of lengths 2 and 0 look like two numbers. *)
Theorem C124_jshape_refuted : exists rows : list (list nat), tshape (rows_tree rows) = None /\ jshape true (rows_tree rows) = Ok (Regular [2%nat])
  /\ jshape true (Node [Leaf 1; Leaf 2]%nat) = Ok (Regular [2%nat]) /\ rows = [[1; 2]; []]%nat.
Proof. exact jshape_refuted. Qed.
Print Assumptions C124_jshape_refuted.

Example C124_example : jshape true (rows_tree [[1; 2; 3]; [4]]%nat) = Ok (Jagged [2%nat] [Regular [3%nat]; Regular [1%nat]]) /\ lists_at_least 2 (rows_tree [[1; 2]; [3; 4; 5]]%nat).
Proof. split; [reflexivity|]. repeat constructor; cbn; try lia; intros s H; repeat (destruct H as [<-|H]; [|]); try destruct H; repeat constructor; cbn; try lia; intros u H; repeat (destruct H as [<-|H]; [constructor|]); destruct H. Qed.

(** * C125 *)
(** A list of integers: not empty, and all within the signed 64 bit integers or all beyond, within the unsigned. *)
Theorem C125_ints : forall zs, isinteger (ISeq (map SInt zs)) true = true <-> zs <> [] /\
  ((forall z, In z zs -> - 2 ^ 63 <= z < 2 ^ 63)%Z \/ (forall z, In z zs -> 2 ^ 63 <= z < 2 ^ 64)%Z).
Proof. exact isinteger_ints. Qed.
Print Assumptions C125_ints.

(** One integer: 64 bits, signed or not. *)
Theorem C125_scalar : forall z, isinteger (IScalar (SInt z)) true = true <-> (- 2 ^ 63 <= z < 2 ^ 64)%Z.
Proof. exact isinteger_scalar. Qed.
Print Assumptions C125_scalar.

(** One float, complex number, string or None is enough for False. *)
Theorem C125_others : forall l it s, In s l -> (s = SFloat \/ s = SComplex \/ s = SStr \/ s = SNone) -> isinteger (ISeq l) it = false.
Proof. exact isinteger_others. Qed.
Print Assumptions C125_others.

(** Booleans are no integers, except together with an integer. *)
Theorem C125_booleans : forall n, isinteger (ISeq (repeat SBool n)) true = false /\ isinteger (IScalar SBool) true = false
  /\ isinteger (ISeq (repeat SBool n ++ [SInt 1])) true = true.
Proof. exact isinteger_booleans. Qed.
Print Assumptions C125_booleans.

(** iterable=False: False for everything but scalars. *)
Theorem C125_only_scalars : forall l k s, isinteger (ISeq l) false = false /\ isinteger (IArray k) false = false /\ isinteger (IScalar s) false = isinteger (IScalar s) true.
Proof. exact isinteger_only_scalars. Qed.
Print Assumptions C125_only_scalars.

(** Large integers are not recognised: 2^64, and 2^63 together with 0. *)
Theorem C125_refuted : exists z y, isinteger (IScalar (SInt z)) true = false /\ isinteger (IScalar (SInt y)) true = true /\ isinteger (ISeq [SInt 0; SInt y]) true = false /\ z = (2 ^ 64)%Z /\ y = (2 ^ 63)%Z.
Proof. exact isinteger_refuted. Qed.
Print Assumptions C125_refuted.

Example C125_example : isinteger (ISeq (map SInt [1; -5; 7]%Z)) true = true /\ isinteger (ISeq [SInt 1; SFloat]) true = false /\ isinteger (ISeq []) true = false.
Proof. repeat split. Qed.

(** * C126 *)
(** In a notebook. *)
Theorem C126_notebook : forall cls other target, occurs "zmqshell" (lower cls) -> run_if_notebook (Some cls) other = Ok CallFunc
  /\ nbshow (Some cls) = Ok CallFunc /\ run_if_script (Some cls) other = Ok (if other then CallOther else CallNone)
  /\ run_if (Some cls) target other = Ok (if String.prefix target "notebook" then CallFunc else if other then CallOther else CallNone).
Proof. exact notebook_runs. Qed.
Print Assumptions C126_notebook.

(** In the IPython terminal: neither notebook nor script. *)
Theorem C126_terminal : forall cls other target, ~ occurs "zmqshell" (lower cls) -> occurs "terminal" (lower cls) ->
  run_if_notebook (Some cls) other = Ok (if other then CallOther else CallNone) /\ run_if_script (Some cls) other = Ok (if other then CallOther else CallNone) /\ nbshow (Some cls) = Ok CallOther
  /\ run_if (Some cls) target other = Ok (if String.prefix target "ipython" then CallFunc else if other then CallOther else CallNone).
Proof. exact terminal_runs. Qed.
Print Assumptions C126_terminal.

(** Without IPython. *)
Theorem C126_script : forall other target, run_if_notebook None other = Ok (if other then CallOther else CallNone) /\ run_if_script None other = Ok CallFunc /\ nbshow None = Ok CallOther
  /\ run_if None target other = Ok (if String.prefix target "script" then CallFunc else if other then CallOther else CallNone).
Proof. exact script_runs. Qed.
Print Assumptions C126_script.

(** In all other front ends of IPython: AttributeError. *)
Theorem C126_other : forall cls target other, ~ occurs "zmqshell" (lower cls) -> ~ occurs "terminal" (lower cls) ->
  run_if (Some cls) target other = Err AttributeError /\ run_if_notebook (Some cls) other = Err AttributeError /\ run_if_script (Some cls) other = Err AttributeError /\ nbshow (Some cls) = Err AttributeError.
Proof. exact other_front_ends. Qed.
Print Assumptions C126_other.

(** Such as Google Colab. *)
Theorem C126_refuted : exists cls, run_if_notebook (Some cls) true = Err AttributeError /\ cls = "<class 'google.colab._shell.Shell'>"%string.
Proof. exact front_end_refuted. Qed.
Print Assumptions C126_refuted.

Example C126_example : occurs "zmqshell" (lower "<class 'ipykernel.zmqshell.ZMQInteractiveShell'>").
Proof. exists "<class 'ipykernel."%string, ".zmqinteractiveshell'>"%string. reflexivity. Qed.

(** * C127 *)
(** Edges, centers and widths. *)
Theorem C127_bins : forall a b num, (2 <= num)%Z -> exists xe xc dx, bins a b num = Ok (xe, xc, dx) /\ length xe = Z.to_nat num /\ uniform xe a b
  /\ length xc = (Z.to_nat num - 1)%nat /\ length dx = (Z.to_nat num - 1)%nat
  /\ (forall i, (S i < Z.to_nat num)%nat -> nth i xc 0 = (nth i xe 0 + nth (S i) xe 0) / 2
        /\ nth i dx 0 = nth (S i) xe 0 - nth i xe 0 /\ nth i dx 0 = (b - a) / IZR (num - 1))
  /\ lsum dx = b - a.
Proof. exact bins_correct. Qed.
Print Assumptions C127_bins.

(** Fewer than two edges. *)
Theorem C127_short : forall a b num, ((0 <= num < 2)%Z -> bins a b num = Err RuntimeError) /\ ((num < 0)%Z -> bins a b num = Err ValueError).
Proof. exact bins_short. Qed.
Print Assumptions C127_short.

Example C127_example : exists xe xc dx, bins 0 1 5 = Ok (xe, xc, dx) /\ length xe = 5%nat /\ nth 1 xc 0 = 3 / 8 /\ nth 3 dx 0 = 1 / 4.
Proof.
  destruct (C127_bins 0 1 5 ltac:(lia)) as (xe & xc & dx & H1 & H2 & H3 & H4 & H5 & H6 & _). exists xe, xc, dx. split; [exact H1|]. split; [exact H2|].
  destruct (H6 0%nat) as [_ [A0 B0]]; [cbn; lia|]. destruct (H6 1%nat) as [C1 [A1 B1]]; [cbn; lia|]. destruct (H6 3%nat) as [_ [_ B3]]; [cbn; lia|].
  destruct H3 as [U _]. split; [|rewrite B3; cbn; lra]. rewrite C1. replace (nth 2 xe 0) with (nth 0 xe 0 + nth 0 dx 0 + nth 1 dx 0) by lra. replace (nth 1 xe 0) with (nth 0 xe 0 + nth 0 dx 0) by lra.
  rewrite B0, B1, U. cbn. lra.
Qed.


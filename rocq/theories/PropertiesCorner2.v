(** Property C108: what the methods of Corner draw. *)
From Coq Require Import String.
From Verif Require Import Base ModelUtils ModelGrid ModelCorner ModelOptions SpecUtils SpecCorner ProofOptions ProofOptions2.
Open Scope R_scope.
Notation length := List.length.

(** * C108 *)
(** Called without dictionaries, each method draws its own set of elements, whatever was called before. *)
Theorem C108_defaults : forall cs c, reaches c = true -> oc_1 c = None -> oc_2 c = None ->
  exists x y, ou_drawn (ocall_run (history new_session cs) c) = Ok (x, if Nat.ltb (oc_size c) 2 then None else Some y)
  /\ (forall k b, In (k, b) (shows_1d (oc_m c)) -> get k x = Some (VBool b)) /\ (forall k b, In (k, b) (shows_2d (oc_m c)) -> get k y = Some (VBool b)).
Proof. exact options_shown. Qed.
Print Assumptions C108_defaults.

(** Called with dictionaries: every option in them is used, and the elements they leave open are those of the method. *)
Theorem C108_given : forall s c d1 d2 x oy, reaches c = true -> oc_1 c = Some d1 -> oc_2 c = Some d2 -> ou_drawn (ocall_run s c) = Ok (x, oy) ->
  (forall k v, get k d1 = Some v -> get k x = Some v)
  /\ (forall k b, In (k, b) (shows_1d (oc_m c)) -> get k d1 = None -> get k x = Some (VBool b))
  /\ forall y, oy = Some y -> (forall k v, get k d2 = Some v -> get k y = Some v) /\ (forall k b, In (k, b) (shows_2d (oc_m c)) -> get k d2 = None -> get k y = Some (VBool b)).
Proof. exact options_win. Qed.
Print Assumptions C108_given.

(** The line style is an option of clean and plot_kde only. *)
Theorem C108_ls : forall s c v, oc_ls c = Some v -> oc_parse c = Ok tt -> oc_m c = MHist \/ oc_m c = MPlot \/ oc_m c = MData -> ou_drawn (ocall_run s c) = Err TypeError.
Proof. exact options_ls. Qed.
Print Assumptions C108_ls.

Example C108_example : let c := mkO MPlot None None (VList [1 / 2]) None (Ok tt) (Ok tt) 3 in let d := mkO MHist (Some [("carpet"%string, VBool true)]) (Some []) (VList [1 / 2]) None (Ok tt) (Ok tt) 3 in
  reaches c = true /\ reaches d = true /\ (exists x y, ou_drawn (ocall_run (history new_session [c; d; c]) c) = Ok (x, Some y) /\ get "confidence"%string x = Some (VBool true) /\ get "contour"%string y = Some (VBool true))
  /\ exists x y, ou_drawn (ocall_run new_session d) = Ok (x, Some y) /\ get "carpet"%string x = Some (VBool true) /\ get "hist"%string x = Some (VBool true) /\ get "contour"%string y = Some (VBool false).
Proof. cbv zeta. split; [reflexivity|]. split; [reflexivity|]. split; do 2 eexists; (split; [vm_compute; reflexivity|]); repeat split. Qed.


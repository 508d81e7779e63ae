(** Properties C14-C17, C73, C74: reflect arguments. *)
From Verif Require Import Base ModelLinAlg ModelKernels ModelKDE ModelExtrema ModelReflect SpecReflect
  SpecKDE ProofExtrema ProofReflectArg ProofKDE.
Open Scope R_scope.
Notation length := List.length.

(** * C14 *)
(** One entry per dimension: accepted with result [spec] exactly when every entry is None, True or a
    pair whose meaning is in increasing order (and no True has to be written into a tuple). *)
Theorem C14_accepted_entries : forall n data k l spec, data <> [] -> (length l <> 2%nat \/ n <> 1%nat) ->
  (snd (check_reflect n data (RSeq k l)) = Ok (Some spec)
   <-> (length l = n /\ (forall e, In e l -> ~ entry_tuple_true k e) /\ length spec = n
        /\ forall i, (i < n)%nat -> means data i (nth i l (EAtom VNone)) (nth i spec None) /\ ordered (nth i spec None))).
Proof. exact check_reflect_seq. Qed.
Print Assumptions C14_accepted_entries.

(** A plain pair for 1-D data. *)
Theorem C14_accepted_pair : forall data k a b spec, data <> [] ->
  (snd (check_reflect 1 data (RSeq k [EAtom a; EAtom b])) = Ok (Some spec)
   <-> exists ob, spec = [ob] /\ ordered ob /\
      (if orb (is_none a) (is_none b) then means data 0 (ESeq KList [a; b]) ob else ob = Some (v_opt a, v_opt b))).
Proof. exact check_reflect_pair. Qed.
Print Assumptions C14_accepted_pair.

Theorem C14_accepted_true : forall n data spec, data <> [] ->
  (snd (check_reflect n data RTrue) = Ok (Some spec)
   <-> (length spec = n /\ forall i, (i < n)%nat -> means data i (EAtom (VBool true)) (nth i spec None) /\ ordered (nth i spec None))).
Proof. exact check_reflect_true. Qed.
Print Assumptions C14_accepted_true.

Theorem C14_no_reflection : forall n data arg,
  snd (check_reflect n data arg) = Ok None <-> (arg = RNone \/ arg = RFalse).
Proof. exact check_reflect_none. Qed.
Print Assumptions C14_no_reflection.

(** Everything else is a ValueError, except a number, or True inside a tuple: TypeError. *)
Theorem C14_rejected : forall n data arg x, data <> [] -> snd (check_reflect n data arg) = Err x ->
  x = ValueError
  \/ (x = TypeError /\ ((exists r, arg = RNum r) \/ exists k l e, arg = RSeq k l /\ In e l /\ entry_tuple_true k e)).
Proof. exact check_reflect_err. Qed.
Print Assumptions C14_rejected.

Example C14_example :
  snd (check_reflect 2 [p0; p1] (RSeq KList [EAtom VNone; ESeq KTuple [VNum 0; VNone]])) = Ok (Some [None; Some (Some 0, None)])
  /\ snd (check_reflect 2 [p0; p1] (RSeq KList [EAtom VNone; ESeq KList [VNum 1; VNum 0]])) = Err ValueError
  /\ snd (check_reflect 2 [p0; p1] (RSeq KTuple [EAtom (VBool true); EAtom VNone])) = Err TypeError
  /\ snd (check_reflect 2 [p0; p1] (RSeq KList [ESeq KList [VNum 1]; EAtom VNone])) = Err ValueError.
Proof.
  repeat split; try reflexivity. cbn. unfold order_check. cbn. destruct (Rleb_spec 0 1); [reflexivity|exfalso; lra].
Qed.

(** * C15 *)
(** Automatic boundaries enclose the data of a dimension exactly when these are non-negative. *)
Theorem C15_true_encloses_iff_nonneg : forall n data spec i,
  data <> [] -> snd (check_reflect n data RTrue) = Ok (Some spec) -> (i < n)%nat ->
  exists lo hi, nth i spec None = Some (Some lo, Some hi)
    /\ ((forall p, In p data -> lo <= p i <= hi) <-> (forall p, In p data -> 0 <= p i)).
Proof. exact true_encloses_iff. Qed.
Print Assumptions C15_true_encloses_iff_nonneg.

Theorem C15_true_accepted : forall n data, data <> [] ->
  ((exists spec, snd (check_reflect n data RTrue) = Ok (Some spec))
   <-> forall i mn mx, (i < n)%nat -> is_min data i mn -> is_max data i mx -> mn * (1 - num_pad) < mx * (1 + num_pad)).
Proof. exact true_accepted_iff. Qed.
Print Assumptions C15_true_accepted.

Example C15_example : exists spec spec', snd (check_reflect 1 [p0; p1] RTrue) = Ok (Some spec)
  /\ snd (check_reflect 1 [pt1 (Ropp 1); p0] RTrue) = Ok (Some spec').
Proof.
  pose proof num_pad_pos.
  destruct (proj2 (true_accepted_iff 1 [p0; p1] ltac:(discriminate))) as [s Hs].
  { intros i mn mx Hi [_ Hmn] [_ Hmx]. pose proof (Hmn p0 (or_introl eq_refl)) as H1. pose proof (Hmx p1 (or_intror (or_introl eq_refl))) as H2.
    unfold p0, p1 in *. nra. }
  destruct (proj2 (true_accepted_iff 1 [pt1 (Ropp 1); p0] ltac:(discriminate))) as [s' Hs'].
  { intros i mn mx Hi [_ Hmn] [_ Hmx]. pose proof (Hmn _ (or_introl eq_refl)) as H1. pose proof (Hmx p0 (or_intror (or_introl eq_refl))) as H2.
    unfold p0, pt1 in *. nra. }
  eauto.
Qed.

(** * C16 *)
Theorem C16_pair_true_number : forall data k x, data <> [] ->
  check_reflect 1 data (RSeq k [EAtom (VBool true); EAtom (VNum x)]) =
  (RSeq k [EAtom (VBool true); EAtom (VNum x)], if Rlt_dec 1 x then Ok (Some [Some (Some 1, Some x)]) else Err ValueError).
Proof. exact pair_true_num. Qed.
Print Assumptions C16_pair_true_number.

Theorem C16_pair_true_true : forall data k, data <> [] ->
  check_reflect 1 data (RSeq k [EAtom (VBool true); EAtom (VBool true)]) =
  (RSeq k [EAtom (VBool true); EAtom (VBool true)], Err ValueError).
Proof. exact pair_true_true. Qed.
Print Assumptions C16_pair_true_true.

(** With None as the other bound the data limit is used. *)
Theorem C16_pair_true_none : forall data k m, data <> [] -> is_min data 0 m ->
  check_reflect 1 data (RSeq k [EAtom (VBool true); EAtom VNone]) =
  (RSeq k [EAtom (VBool true); EAtom VNone], Ok (Some [Some (Some (m * (1 - num_pad)), None)])).
Proof. exact pair_true_none. Qed.
Print Assumptions C16_pair_true_none.

Example C16_example : is_min [p0; p1] 0 0 /\ snd (check_reflect 1 [p0; p1] (RSeq KList [EAtom (VBool true); EAtom (VNum 9)])) = Ok (Some [Some (Some 1, Some 9)]).
Proof.
  split.
  - split; [exists p0; split; [left; reflexivity|reflexivity]|]. intros p [<-|[<-|[]]]; unfold p0, p1; lra.
  - rewrite C16_pair_true_number by discriminate. cbn [snd]. destruct (Rlt_dec 1 9); [reflexivity|exfalso; lra].
Qed.

(** * C17 *)
(** Specifications without True: see C17_no_true_not_modified in PropertiesResample.v. *)
(** A list with True is overwritten, and the boundaries of the first data are used for every other. *)
Theorem C17_first_boundaries_reused : forall n data k l arg' spec,
  data <> [] -> (length l <> 2%nat \/ n <> 1%nat) ->
  check_reflect n data (RSeq k l) = (arg', Ok (Some spec)) ->
  no_true arg' /\ forall data', data' <> [] -> check_reflect n data' arg' = (arg', Ok (Some spec)).
Proof. exact caller_list_filled. Qed.
Print Assumptions C17_first_boundaries_reused.

Theorem C17_list_modified_refuted : exists n data arg K,
  snd (kde_new n data WNone (BwAtom (BNum 1)) false None Box None None arg) = Ok K
  /\ fst (kde_new n data WNone (BwAtom (BNum 1)) false None Box None None arg) <> arg.
Proof.
  exists 1%nat, [p0; p1], (RSeq KList [EAtom (VBool true)]).
  assert (E : order_check (VNum (auto_lo [p0; p1] 0)) (VNum (auto_hi [p0; p1] 0)) = Ok tt).
  { apply order_check_iff. cbn. unfold auto_lo, auto_hi, coords, p0, p1. cbn. pose proof num_pad_pos.
    unfold Rmin, Rmax. repeat destruct (Rle_dec _ _); nra. }
  unfold kde_new. cbn [check_reflect length Nat.eqb andb negb goods forallb entry_good orb is_true is_none check_loop check_entry].
  rewrite E. cbn [fst snd bind check_loop]. eexists. split; [reflexivity|discriminate].
Qed.
Print Assumptions C17_list_modified_refuted.

Example C17_example : no_true (RSeq KList [ESeq KTuple [VNum 0; VNone]; EAtom VNone]) /\ ~ no_true (RSeq KList [EAtom (VBool true)]).
Proof.
  split.
  - intros e [<-|[<-|[]]]; (split; [discriminate|]); intros k l E; try discriminate E. injection E as <- <-. intros [H|[H|[]]]; discriminate H.
  - intros H. destruct (H _ (or_introl eq_refl)) as [H1 _]. apply H1. reflexivity.
Qed.

(** * C73 *)
(** The stored boundaries are complete, in order, and pass every later check unchanged. *)
Theorem C73_stored_boundaries_stable : forall n data w b diag resc d cova neffa arg K r,
  snd (kde_new n data w b diag resc d cova neffa arg) = Ok K -> kd_reflect K = Some r ->
  List.length r = n /\ (forall ob, In ob r -> ordered ob)
  /\ forall data', data' <> [] -> check_reflect n data' (embed r) = (embed r, Ok (Some r)).
Proof. exact kde_new_stored. Qed.
Print Assumptions C73_stored_boundaries_stable.

Theorem C73_per_call_equals_stored : forall K (prob : bool) pdim r,
  kd_data K <> [] -> List.length r = kd_ndim K -> (forall ob, In ob r -> ordered ob) ->
  density_call K prob pdim (embed r) PNone = (embed r, kde_density K prob pdim (Some r) PNone).
Proof. exact density_call_embed. Qed.
Print Assumptions C73_per_call_equals_stored.

Example C73_example : exists K, snd (kde_new 1 [p0; p1] WNone (BwAtom (BNum 1)) false None Box None None (RSeq KTuple [EAtom (VNum 0); EAtom VNone])) = Ok K
  /\ kd_reflect K = Some [Some (Some 0, None)].
Proof. eexists. split; reflexivity. Qed.

(** * C74 *)
(** Per-call reflect: None always means the stored boundaries, booleans are rejected. *)
Theorem C74_per_call_booleans : forall K (prob : bool) pdim p ops, resolve_params K p = Ok ops ->
  snd (density_call K prob pdim RNone p) = kde_density K prob pdim None p
  /\ snd (density_call K prob pdim RTrue p) = Err TypeError
  /\ snd (density_call K prob pdim RFalse p) = Err TypeError.
Proof. exact density_call_atoms. Qed.
Print Assumptions C74_per_call_booleans.

Theorem C74_none_means_stored : forall K (prob : bool) pdim r, kd_reflect K = Some r ->
  kde_density K prob pdim None PNone = kde_density K prob pdim (Some r) PNone.
Proof. exact kde_density_stored. Qed.
Print Assumptions C74_none_means_stored.

Example C74_example : exists K, snd (kde_new 1 [p0; p1] WNone (BwAtom (BNum 1)) false None Box None None (RSeq KTuple [EAtom (VNum 0); EAtom VNone])) = Ok K
  /\ resolve_params K PNone = Ok None.
Proof. eexists. split; reflexivity. Qed.

(** Properties C12, C48 and C114: reflected densities, extrema arguments, and the constructor with its extrema. *)
From Coq Require Import String.
From Verif Require Import Base ModelLinAlg SpecLinAlg SpecIntegral ModelKernels SpecKernels ModelKDE SpecKDE ModelExtrema ModelReflect ModelDist ModelConstruct
  SpecReflected SpecConstruct ProofLinAlg ProofKDE ProofExamples ProofTop2 ProofTop3 ProofReflected ProofConstruct.
Open Scope R_scope.
Notation length := List.length.

(** * C12 *)
(** The density with boundaries, everywhere: the data count where the point is within all limits, the images of a dimension where it is within the limits of that and of all later dimensions. *)
Theorem C12_reflected_density : forall n data ws d M refl K N (prob : bool) (r : reflspec), (1 <= n)%nat ->
  built_kde n data ws d M refl K -> is_inverse n M N -> length r = n ->
  exists Z f, 0 < Z /\ (forall base, is_tintN n (fun y => spec_prof d (quad n N y)) base Z)
    /\ kde_density K prob n (Some r) PNone = Ok f
    /\ forall x, exists s0 s, f x = mass prob ws / lsum ws * ((s0 + rsum n s) / Z)
         /\ (within_from r x 0 -> s0 = spec_sum d n N (combine data ws) x) /\ (~ within_from r x 0 -> s0 = 0)
         /\ forall i, (i < n)%nat ->
              (within_from r x i -> s i = sumf (fun v => spec_sum d n N (mirrored_data i v (combine data ws)) x) (boundaries (nth i r None)))
              /\ (~ within_from r x i -> s i = 0).
Proof. exact top_reflected. Qed.
Print Assumptions C12_reflected_density.

(** Outside the limits of a dimension the density is positive exactly where an image of a later dimension reaches. *)
Theorem C12_positive_outside_iff : forall n data ws d M refl K N (prob : bool) (r : reflspec) f x i, (1 <= n)%nat ->
  built_kde n data ws d M refl K -> is_inverse n M N -> length r = n ->
  kde_density K prob n (Some r) PNone = Ok f -> ~ within r x i ->
  0 <= f x
  /\ (0 < f x <-> exists j v p w, (i < j < n)%nat /\ within_from r x j /\ is_boundary r j v
       /\ In (p, w) (combine data ws) /\ 0 < w /\ 0 < spec_prof d (quad n N (psub x (mirrored j v p)))).
Proof. exact top_positive_outside. Qed.
Print Assumptions C12_positive_outside_iff.

(** Limits x >= 0 in both dimensions: at (-1/2, 1/2) the image of the origin in the second dimension counts. *)
Example C12_outside_example : exists K, built_kde 2 [origin] [1] Gaussian ident None K /\ is_inverse 2 ident ident
  /\ let r := [Some (Some 0, None); Some (Some 0, None)] in let x : pt := fun i => match i with O => - (1 / 2) | _ => 1 / 2 end in
     ~ within r x 0 /\ within_from r x 1 /\ is_boundary r 1 0 /\ In (origin, 1) (combine [origin] [1])
     /\ 0 < spec_prof Gaussian (quad 2 ident (psub x (mirrored 1 0 origin))).
Proof.
  exists (k12 Gaussian 2 None). split; [apply k12_built|]. split; [apply ident_inverse|].
  cbv zeta. split; [|split; [|split; [|split]]].
  - intros H. destruct (H (Some 0) None eq_refl) as [H1 _]. specialize (H1 0 eq_refl). cbn in H1. lra.
  - intros j Hj lo hi E. destruct j as [|[|[|j]]]; [lia| |discriminate E|destruct j; discriminate E]. injection E as <- <-. split; intros v E'; [injection E' as <-; lra|discriminate E'].
  - exists (Some 0), None. split; [reflexivity|left; reflexivity].
  - left. reflexivity.
  - apply exp_pos.
Qed.

(** * C48 *)
(** Every argument: read, or refused with a ValueError, or with a TypeError. *)
Theorem C48_outcome : forall dext arg, dext <> [] ->
  (readable (length dext) arg /\ exists r, parse_extrema_py dext arg = Ok r)
  \/ (~ readable (length dext) arg /\ bad_shape (length dext) arg /\ parse_extrema_py dext arg = Err ValueError)
  \/ (~ readable (length dext) arg /\ ~ bad_shape (length dext) arg /\ parse_extrema_py dext arg = Err TypeError).
Proof. exact parse_py_outcome. Qed.
Print Assumptions C48_outcome.

(** What is read: each dimension by itself. *)
Theorem C48_each_dimension : forall dext k l r, per_dimension (length dext) l -> parse_extrema_py dext (RSeq k l) = Ok r ->
  length r = length dext /\ forall i, (i < length dext)%nat ->
    (nth i l (EAtom VNone) = EAtom VNone -> nth i r (0, 0) = nth i dext (0, 0))
    /\ forall k' a b, nth i l (EAtom VNone) = ESeq k' [a; b] ->
         end_is a (fst (nth i dext (0, 0))) (fst (nth i r (0, 0))) /\ end_is b (snd (nth i dext (0, 0))) (snd (nth i r (0, 0))).
Proof. exact parse_py_each. Qed.
Print Assumptions C48_each_dimension.

(** One pair for all dimensions: missing ends come from the first dimension. *)
Theorem C48_one_pair : forall d0 dext k a b r, parse_extrema_py (d0 :: dext) (RSeq k [EAtom a; EAtom b]) = Ok r ->
  exists p, r = repeat p (S (length dext)) /\ end_is a (fst d0) (fst p) /\ end_is b (snd d0) (snd p).
Proof. exact parse_py_flat. Qed.
Print Assumptions C48_one_pair.

(** With params and another number of extrema than dimensions: the entries of params, as they are. *)
Theorem C48_params : forall dext l ps, length l <> length dext ->
  ((forall p, In p ps -> (p < length l)%nat) -> parse_extrema_params dext (Some l) ps = Ok (map (fun p => nth p l XNone) ps))
  /\ ((exists p, In p ps /\ (length l <= p)%nat) -> parse_extrema_params dext (Some l) ps = Err IndexError).
Proof. exact parse_params_select. Qed.
Print Assumptions C48_params.

Example C48_raw_example : readable 2 (RSeq KTuple [ESeq KList [VNum 0; VNone]; ESeq KTuple [VNum 1; VNum 2]])
  /\ ~ readable 2 (RSeq KList [ESeq KTuple [VNum 0; VNone]; EAtom VNone])
  /\ parse_extrema_py [(0, 1); (5, 6)] (RSeq KList [ESeq KList [VNone; VNum 3]; EAtom VNone]) = Ok [(0, 3); (5, 6)]
  /\ bad_shape 3 (RSeq KList [EAtom VNone; EAtom VNone; EAtom VNone]).
Proof.
  split; [|split; [|split; [reflexivity|]]].
  - right. split; [split; [reflexivity|split]|].
    + intros e [<-|[<-|[]]]; right; eexists; eexists; eexists; reflexivity.
    + exists (ESeq KList [VNum 0; VNone]). split; [left; reflexivity|eexists; eexists; eexists; reflexivity].
    + intros e [<-|[<-|[]]] [[_ E]|[k [a [b [E [Hk Hn]]]]]]; try discriminate E; injection E as <- <- <-; [discriminate Hk|]. destruct Hn as [E|E]; discriminate E.
  - intros [[a [b [E _]]]|[_ H]]; [discriminate E|]. apply (H (ESeq KTuple [VNum 0; VNone])); [left; reflexivity|]. right. exists KTuple, (VNum 0), VNone.
    split; [reflexivity|]. split; [reflexivity|right; reflexivity].
  - exists KList, [EAtom VNone; EAtom VNone; EAtom VNone]. split; [reflexivity|]. left. split; [|discriminate].
    intros e [<-|[<-|[<-|[]]]]; exists VNone; reflexivity.
Qed.

(** * C114 *)
(** Construction without extrema, the boundaries having passed their check: exactly which boundaries are refused after all, and how. *)
Theorem C114_boundaries : forall n data w b diag resc d cova neffa refl ppf K, (1 <= n)%nat ->
  snd (kde_new n data w b diag resc d cova neffa refl) = Ok K ->
  let unlimited := n <> 2%nat /\ exists k l, refl = RSeq k l /\ no_limits l in
  (gives_extrema n refl /\ exists e, kde_construct n data w b diag resc d cova neffa refl RNone ppf = Ok (K, e))
  \/ (~ gives_extrema n refl /\ unlimited /\ kde_construct n data w b diag resc d cova neffa refl RNone ppf = Err ValueError)
  \/ (~ gives_extrema n refl /\ ~ unlimited /\ kde_construct n data w b diag resc d cova neffa refl RNone ppf = Err TypeError).
Proof. exact construct_boundaries. Qed.
Print Assumptions C114_boundaries.

(** Construction with extrema: the boundaries do not matter any more. *)
Theorem C114_extrema_argument : forall n data w b diag resc d cova neffa refl user ppf K, (1 <= n)%nat ->
  snd (kde_new n data w b diag resc d cova neffa refl) = Ok K -> user <> RNone ->
  (readable n user /\ exists e, kde_construct n data w b diag resc d cova neffa refl user ppf = Ok (K, e))
  \/ (~ readable n user /\ bad_shape n user /\ kde_construct n data w b diag resc d cova neffa refl user ppf = Err ValueError)
  \/ (~ readable n user /\ ~ bad_shape n user /\ kde_construct n data w b diag resc d cova neffa refl user ppf = Err TypeError).
Proof. exact construct_user. Qed.
Print Assumptions C114_extrema_argument.

(** Everything that fails before fails the same. *)
Theorem C114_first_error : forall n data w b diag resc d cova neffa refl user ppf e, snd (kde_new n data w b diag resc d cova neffa refl) = Err e -> kde_construct n data w b diag resc d cova neffa refl user ppf = Err e.
Proof. exact construct_new_err. Qed.
Print Assumptions C114_first_error.

(** The extrema of the constructed KDE are those of its checked boundaries. *)
Theorem C114_extrema : forall n data w b diag resc d cova neffa refl ppf K e, (1 <= n)%nat ->
  kde_construct n data w b diag resc d cova neffa refl RNone ppf = Ok (K, Some e) -> kde_extrema K ppf None = Some (Ok e).
Proof. exact construct_extrema. Qed.
Print Assumptions C114_extrema.

(** Extrema given as an argument, one entry per dimension: every limit given is a limit of the KDE, whatever the boundaries. *)
Theorem C114_given : forall n data w b diag resc d cova neffa refl k l ppf K e, (1 <= n)%nat -> per_dimension n l ->
  kde_construct n data w b diag resc d cova neffa refl (RSeq k l) ppf = Ok (K, Some e) ->
  kde_extrema K ppf (Some (refl_extrema (map entry_spec l))) = Some (Ok e)
  /\ length e = n /\ forall i k' lo hi, (i < n)%nat -> nth i l (EAtom VNone) = ESeq k' [lo; hi] ->
       (lo <> VNone -> num_of lo (fst (nth i e (0, 0)))) /\ (hi <> VNone -> num_of hi (snd (nth i e (0, 0)))).
Proof. exact construct_given. Qed.
Print Assumptions C114_given.

Example C114_given_example : per_dimension 2 [EAtom VNone; ESeq KTuple [VNum 0; VNum 1]].
Proof.
  split; [reflexivity|]. split.
  - intros e [<-|[<-|[]]]; [left; reflexivity|right; eexists; eexists; eexists; reflexivity].
  - eexists. split; [right; left; reflexivity|eexists; eexists; eexists; reflexivity].
Qed.

(** Boundaries that pass their check are not always accepted. *)
Theorem C114_accepted_boundaries_refuted : exists data r K, data <> [] /\
  (forall ppf, snd (kde_new 1 data WNone (BwAtom (BNum 1)) false None Box None None r) = Ok K
   /\ kde_construct 1 data WNone (BwAtom (BNum 1)) false None Box None None r RNone ppf = Err TypeError)
  /\ exists r' K', forall ppf, snd (kde_new 1 data WNone (BwAtom (BNum 1)) false None Box None None r') = Ok K'
   /\ kde_construct 1 data WNone (BwAtom (BNum 1)) false None Box None None r' RNone ppf = Err ValueError.
Proof.
  exists [p0; p1], (RSeq KList [ESeq KTuple [VNum 0; VNone]]). eexists. split; [discriminate|]. split.
  - intros ppf. split; [reflexivity|].
    destruct (construct_boundaries 1 [p0; p1] WNone (BwAtom (BNum 1)) false None Box None None (RSeq KList [ESeq KTuple [VNum 0; VNone]]) ppf _ (le_n 1) eq_refl)
      as [[H _]|[[_ [[_ [k [l [E H]]]] _]]|[_ [_ H]]]]; [| |exact H].
    + destruct H as [[_ [a [b E]]]|[[_ H]|[E _]]]; [discriminate E| |discriminate E]. contradiction (H _ (or_introl eq_refl)). right. exists KTuple, (VNum 0), VNone.
      split; [reflexivity|]. split; [reflexivity|right; reflexivity].
    + injection E as <- <-. discriminate (H _ (or_introl eq_refl)).
  - exists (RSeq KList [EAtom VNone]). eexists. intros ppf. split; [reflexivity|].
    destruct (construct_boundaries 1 [p0; p1] WNone (BwAtom (BNum 1)) false None Box None None (RSeq KList [EAtom VNone]) ppf _ (le_n 1) eq_refl)
      as [[H _]|[[_ [_ H]]|[_ [H _]]]]; [|exact H|].
    + destruct H as [[_ [a [b E]]]|[[H _]|[E _]]]; [discriminate E| |discriminate E]. contradiction H. intros e [<-|[]]. reflexivity.
    + contradiction H. split; [discriminate|]. exists KList, [EAtom VNone]. split; [reflexivity|]. intros e [<-|[]]. reflexivity.
Qed.
Print Assumptions C114_accepted_boundaries_refuted.

Example C114_example : gives_extrema 1 (RSeq KTuple [EAtom (VNum 0); EAtom VNone]) /\ ~ gives_extrema 1 (RSeq KList [ESeq KTuple [VNum 0; VNone]])
  /\ gives_extrema 2 (RSeq KList [EAtom VNone; ESeq KTuple [VNum 0; VNum 1]]) /\ ~ gives_extrema 2 (RSeq KTuple [EAtom VNone; ESeq KTuple [VNum 0; VNum 1]]).
Proof.
  split; [|split; [|split]].
  - left. split; [reflexivity|]. exists (VNum 0), VNone. reflexivity.
  - intros [[_ [a [b E]]]|[[_ H]|[E _]]]; [discriminate E| |discriminate E]. apply (H _ (or_introl eq_refl)). right. exists KTuple, (VNum 0), VNone.
    split; [reflexivity|]. split; [reflexivity|right; reflexivity].
  - right. left. split; [intros H; discriminate (H _ (or_intror (or_introl eq_refl)))|].
    intros e [<-|[<-|[]]] [[E1 E]|[k [a [b [E [Hk Hn]]]]]]; try discriminate E; try discriminate E1. injection E as <- <- <-. destruct Hn as [E|E]; discriminate E.
  - intros [[E _]|[[_ H]|[_ [E _]]]]; [discriminate E| |discriminate E]. apply (H _ (or_introl eq_refl)). left. split; reflexivity.
Qed.


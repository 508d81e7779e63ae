(** C144: what the points argument of KDE means. *)
From Coq Require Import ZArith.
From Verif Require Import Base ModelLinAlg ModelKernels ModelKDE ModelExtrema ModelUtils ModelGrid SpecUtils SpecLinAlg SpecKDE ModelEdges SpecEdges ProofUtils2 ProofEdges.
Open Scope R_scope.
Notation length := List.length.

(** Every argument: the points of every dimension, or the error of the first dimension that has one. *)
Theorem C144_meaning : forall sorter n data w b diag resc d cova neffa refl K bw ext points, (1 <= n)%nat ->
  kde_init n data w b diag resc d cova neffa refl = Ok K -> length ext = n -> (forall p, In p ext -> fst p < snd p) ->
  match kde_points_raw sorter K bw ext points with
  | Ok g => length g = n /\ forall i, (i < n)%nat -> exists e, says n points i (Some e) /\ asks (fst (nth i ext (0, 0))) (snd (nth i ext (0, 0))) e (Ok (nth i g []))
  | Err x => (x = ValueError /\ forall i, says n points i None)
      \/ exists i e, (i < n)%nat /\ says n points i (Some e) /\ asks (fst (nth i ext (0, 0))) (snd (nth i ext (0, 0))) e (Err x)
         /\ forall j, (j < i)%nat -> exists e' g, says n points j (Some e') /\ asks (fst (nth j ext (0, 0))) (snd (nth j ext (0, 0))) e' (Ok g)
  end.
Proof. exact points_meaning. Qed.
Print Assumptions C144_meaning.

(** The meaning determines the answer (up to the number of automatic bins). *)
Theorem C144_says_unique : forall n p i a b, says n p i a -> says n p i b -> a = b.
Proof. exact says_unique. Qed.
Print Assumptions C144_says_unique.
Theorem C144_asks_unique : forall lo hi e r r', e <> ENone -> asks lo hi e r -> asks lo hi e r' -> r = r'.
Proof. exact asks_unique. Qed.
Print Assumptions C144_asks_unique.
Example C144_ex_meaning : says 2 (ErSeq [ENone; EInt 4]) 1 (Some (EInt 4)) /\ asks 0 4 (EInt 2) (Ok [Some 0; Some 2; Some 4])
  /\ says 2 (ErSeq [EVec []; EInt 4; ENone]) 0 None.
Proof.
  split; [constructor; reflexivity|]. split.
  - change 2%Z with (Z.of_nat 2). constructor. exists [0; 2; 4]. split; [reflexivity|]. split; [reflexivity|]. split; [reflexivity|].
    intros i Hi. destruct i as [|[|i]]; [cbn; lra|cbn; lra|lia].
  - constructor; [discriminate|]. intros H. destruct (H (EVec []) (or_introl eq_refl)) as [E|[[z E]|[r E]]]; discriminate.
Qed.

(** A vector of numbers is used in every dimension, if it has not as many entries as there are dimensions ... *)
Theorem C144_vector : forall sorter n data w b diag resc d cova neffa refl K bw ext l,
  kde_init n data w b diag resc d cova neffa refl = Ok K -> length l <> n ->
  kde_points_raw sorter K bw ext (ErSeq (map EFlt l)) = Ok (repeat (map Some l) n).
Proof. exact vector_given. Qed.
Print Assumptions C144_vector.
(** ... in which case integers are numbers of bins ... *)
Theorem C144_vector_as_bins : forall sorter n data w b diag resc d cova neffa refl K bw ext l, (1 <= n)%nat ->
  kde_init n data w b diag resc d cova neffa refl = Ok K -> length ext = n -> (forall p, In p ext -> fst p < snd p) -> length l = n ->
  exists g, kde_points_raw sorter K bw ext (ErSeq (map (fun k => EInt (Z.of_nat k)) l)) = Ok g /\ length g = n
    /\ forall i, (i < n)%nat -> equal_bins (nth i l O) (fst (nth i ext (0, 0))) (snd (nth i ext (0, 0))) (nth i g []).
Proof. exact vector_as_bins. Qed.
Print Assumptions C144_vector_as_bins.
(** ... and floating point numbers a TypeError. *)
Theorem C144_vector_of_floats : forall sorter n data w b diag resc d cova neffa refl K bw ext l, (1 <= n)%nat ->
  kde_init n data w b diag resc d cova neffa refl = Ok K -> length ext = n -> (forall p, In p ext -> fst p < snd p) -> length l = n ->
  kde_points_raw sorter K bw ext (ErSeq (map EFlt l)) = Err TypeError.
Proof. exact vector_of_floats. Qed.
Print Assumptions C144_vector_of_floats.
Theorem C144_vector_refuted : exists K ext l, (forall sorter bw, exists g, kde_points_raw sorter K bw ext (ErSeq (map (fun k => EInt (Z.of_nat k)) l)) = Ok g /\ g <> repeat (map (fun k => Some (INR k)) l) 1)
  /\ (exists data, kde_init 1 data WNone (BwAtom (BNum 1)) false None Box (Some ident) None None = Ok K) /\ length ext = 1%nat /\ (forall p, In p ext -> fst p < snd p).
Proof. exact vector_refuted. Qed.
Print Assumptions C144_vector_refuted.
(** One vector per dimension is taken as it is. *)
Theorem C144_vectors : forall sorter n data w b diag resc d cova neffa refl K bw ext ls, (1 <= n)%nat ->
  kde_init n data w b diag resc d cova neffa refl = Ok K -> length ls = n -> kde_points_raw sorter K bw ext (ErSeq (map EVec ls)) = Ok ls.
Proof. exact vectors_given. Qed.
Print Assumptions C144_vectors.
(** No bins: one number instead of a vector, when the data were given as a vector. *)
Theorem C144_no_bins : forall sorter data w b diag resc d cova neffa refl K bw lo hi, kde_init 1 data w b diag resc d cova neffa refl = Ok K -> lo < hi ->
  exists g, kde_points_raw sorter K bw [(lo, hi)] (ErInt 0) = Ok g /\ points_squeeze true g = GScalar (Some lo) /\ points_squeeze false g = GGrids [[Some lo]].
Proof. exact no_bins. Qed.
Print Assumptions C144_no_bins.
(** Agreement with the requests already checked (C50). *)
Theorem C144_checked : forall sorter K bw ext (e : edge1), (1 <= kd_ndim K)%nat -> length ext = kd_ndim K -> (match e with EdVec l => length l <> kd_ndim K | _ => True end) ->
  kde_points_raw sorter K bw ext (match e with EdAuto => ErNone | EdNum k => ErInt (Z.of_nat k) | EdVec l => ErSeq (map EFlt l) end)
  = do g <- kde_points sorter K bw ext (EdAll e) ;; Ok (map (map Some) g).
Proof. exact raw_checked. Qed.
Print Assumptions C144_checked.
Example C144_ex_kde : exists K, kde_init 3 [pt1 0; pt1 1] WNone (BwAtom (BNum 1)) false None Box (Some ident) None None = Ok K
  /\ kde_points_raw isort K (fun _ _ => 1) [(0, 1); (0, 1); (0, 1)] (ErSeq [EFlt 0; EFlt 1]) = Ok [[Some 0; Some 1]; [Some 0; Some 1]; [Some 0; Some 1]]
  /\ kde_points_raw isort K (fun _ _ => 1) [(0, 1); (0, 1); (0, 1)] (ErSeq [EFlt 0; EFlt 1; EFlt 2]) = Err TypeError.
Proof.
  eexists. split; [reflexivity|]. split.
  - apply (C144_vector isort 3 [pt1 0; pt1 1] WNone (BwAtom (BNum 1)) false None Box (Some ident) None None _ _ _ [0; 1] eq_refl). discriminate.
  - apply (C144_vector_of_floats isort 3 [pt1 0; pt1 1] WNone (BwAtom (BNum 1)) false None Box (Some ident) None None _ _ _ [0; 1; 2]); try reflexivity; [lia|].
    intros p [<-|[<-|[<-|[]]]]; cbn; lra.
Qed.

(** Properties C29, C34, C35, C79, C80: shapes of results, the functions of kalepy/__init__.py, choosing a kernel. *)
From Coq Require Import String Ascii.
From Verif Require Import Base ModelLinAlg SpecLinAlg ModelKernels SpecKernels ModelKDE ModelReflect ModelInterp ModelResample ModelUtils ModelNd ModelGrid ModelSample ModelApi
  SpecUtils SpecKDE SpecNd SpecGrid SpecApi ProofExamples ProofKDE ProofLinAlg ProofTop2 ProofTop3 ProofResample ProofResample2 ProofNd ProofNd2 ProofGrid ProofGrid3 ProofApi.
Open Scope R_scope.
Notation length := List.length.

(** * C29 *)
(** M points of one-dimensional data (or of a one-dimensional projection) given as a flat sequence: shape (M,), except that one point gives a value without dimensions. *)
Theorem C29_flat_points : forall K (prob grid : bool) refl p l f fd auto, kde_density K prob 1 refl p = Ok f ->
  exists a, density_values K prob refl p grid (Some (PtFlat l)) fd auto = Ok (PtFlat l, a)
  /\ (length l <> 1%nat -> vector_of (length l) (fun j => f (fun d => nth j (nth d [l] []) 0)) a)
  /\ (length l = 1%nat -> single_value (f (fun d => nth 0 (nth d [l] []) 0)) a).
Proof. exact flat_points. Qed.
Print Assumptions C29_flat_points.

(** Points given as rows: shape (M,) for every M, also for M = 1 ... *)
Theorem C29_row_points : forall K (prob : bool) refl p rows m f fd auto, kde_density K prob (length rows) refl p = Ok f -> rows <> [] -> (forall r, In r rows -> length r = m) ->
  (kd_ndim K = 1%nat \/ forall q, p <> PInt q) ->
  exists a, density_values K prob refl p false (Some (PtRows rows)) fd auto = Ok (PtRows rows, a)
  /\ vector_of m (fun j => f (fun d => nth j (nth d rows []) 0)) a.
Proof. exact row_points. Qed.
Print Assumptions C29_row_points.

(** ... unless one dimension of several was selected by a bare number: then as for a flat sequence. *)
Theorem C29_param_points : forall K (prob : bool) refl q l f fd auto, kde_density K prob 1 refl (PInt q) = Ok f -> kd_ndim K <> 1%nat ->
  exists a, density_values K prob refl (PInt q) false (Some (PtRows [l])) fd auto = Ok (PtFlat l, a)
  /\ (length l <> 1%nat -> vector_of (length l) (fun j => f (fun d => nth j (nth d [l] []) 0)) a)
  /\ (length l = 1%nat -> single_value (f (fun d => nth 0 (nth d [l] []) 0)) a).
Proof. exact param_points. Qed.
Print Assumptions C29_param_points.

(** A bare number: shape (1,). *)
Theorem C29_number_point : forall K (prob : bool) refl r f fd auto, kde_density K prob 1 refl PNone = Ok f ->
  exists a, density_values K prob refl PNone false (Some (PtScalar r)) fd auto = Ok (PtScalar r, a)
  /\ vector_of 1 (fun _ => f (fun d => nth 0 (nth d [[r]] []) 0)) a.
Proof. exact number_point. Qed.
Print Assumptions C29_number_point.

(** Resampling: shape (D, L); one-dimensional samples have shape (L,), a single one has none. *)
Theorem C29_resample_shape : forall K size keep chunk arg (squeeze : bool) rn ix ss, snd (kde_resample K size keep chunk arg rn ix) = Ok ss ->
  exists a, snd (resample_values K size keep chunk arg squeeze rn ix) = Ok a
  /\ (kd_ndim K <> 1%nat \/ squeeze = false -> shp a = [kd_ndim K; size_of (kd_data K) size]
      /\ forall i j, at_ a [i; j] = nth j ss pt0 i)
  /\ (kd_ndim K = 1%nat -> squeeze = true -> size_of (kd_data K) size <> 1%nat -> vector_of (size_of (kd_data K) size) (fun j => nth j ss pt0 0%nat) a)
  /\ (kd_ndim K = 1%nat -> squeeze = true -> size_of (kd_data K) size = 1%nat -> single_value (nth 0 ss pt0 0%nat) a).
Proof. exact resample_shape. Qed.
Print Assumptions C29_resample_shape.

Example C29_example : exists K f, built_kde 1 [origin] [1] Gaussian ident None K /\ kde_density K true 1 None PNone = Ok f
  /\ (exists a, density_values K true None PNone false (Some (PtFlat [0; 1; 2])) true (Ok []) = Ok (PtFlat [0; 1; 2], a) /\ shp a = [3%nat])
  /\ (exists a, density_values K true None PNone false (Some (PtFlat [0])) true (Ok []) = Ok (PtFlat [0], a) /\ shp a = []).
Proof.
  assert (HB := k12_built Gaussian 1 None). destruct (density_refl_exists_none 1 [origin] [1] Gaussian ident (k12 Gaussian 1 None) true HB (le_n 1)) as [f Hf].
  exists (k12 Gaussian 1 None), f. split; [exact HB|]. split; [exact Hf|]. split.
  - destruct (flat_points _ true false None PNone [0; 1; 2] f true (Ok []) Hf) as (a & E & V & _). exists a. split; [exact E|]. apply V. discriminate.
  - destruct (flat_points _ true false None PNone [0] f true (Ok []) Hf) as (a & E & _ & V). exists a. split; [exact E|]. apply V. reflexivity.
Qed.
Example C29_resample_example : exists K ss ix, built_kde 1 [origin] [1] Gaussian ident None K
  /\ snd (kde_resample K (Some 1%nat) KeepNone 1 RNone (fun _ _ => mkRnd (fun _ => 1) (fun _ => 0) (fun _ _ => 0)) ix) = Ok ss.
Proof.
  assert (HB := k12_built Gaussian 1 None).
  destruct (kept_verbatim 1 [origin] [1] Gaussian ident None (k12 Gaussian 1 None) (Some 1%nat) KeepNone 1 RNone (fun _ _ => mkRnd (fun _ => 1) (fun _ => 0) (fun _ _ => 0)) (fun _ _ => 0%nat) HB) as (ss & U & E & _).
  - right. split; reflexivity.
  - intros i Hi. cbn in Hi. contradiction.
  - intros j Hj. cbn. split; [lia|lra].
  - exists (k12 Gaussian 1 None), ss, (fun _ _ => 0%nat). split; [exact HB|exact E].
Qed.

(** * C34 *)
(** kalepy.pdf never returns a value ... *)
Theorem C34_pdf_never_returns : forall n data pts w refl params grid kw fd auto, exists e, api_pdf n data pts w refl params grid kw fd auto = Err e.
Proof. exact pdf_never. Qed.
Print Assumptions C34_pdf_never_returns.

(** ... where the same arguments make a KDE it raises TypeError ... *)
Theorem C34_pdf_typeerror : forall n data pts w refl params grid kw fd auto K, snd (kde_call n data w refl kw) = Ok K ->
  api_pdf n data pts w refl params grid kw fd auto = Err TypeError.
Proof. exact pdf_typeerror. Qed.
Print Assumptions C34_pdf_typeerror.

(** ... and otherwise the error of making the KDE. *)
Theorem C34_pdf_errors : forall n data pts w refl params grid kw fd auto e, ~ In "probability"%string (kw_extra kw) -> ~ In "dataset"%string (kw_extra kw) ->
  (forall s, In s (kw_extra kw) -> s = "chunk"%string) ->
  snd (kde_call n data w refl kw) = Err e -> e <> NotImplementedError -> api_pdf n data pts w refl params grid kw fd auto = Err e.
Proof. exact pdf_errors. Qed.
Print Assumptions C34_pdf_errors.

(** kalepy.density is KDE(...).density(...) ... *)
Theorem C34_density : forall n data pts w refl (prob grid : bool) kw fd auto d K, get_distribution_class (kw_kernel kw) = Ok (DKnown d) ->
  (forall s, In s (kw_extra kw) -> s = "chunk"%string) ->
  snd (kde_new n data w (kw_bw kw) (kw_diag kw) (kw_rescale kw) d (kw_cov kw) (kw_neff kw) refl) = Ok K ->
  api_density n data pts w refl prob grid kw fd auto = density_values K prob None PNone grid pts fd (auto K).
Proof. exact density_is_kde. Qed.
Print Assumptions C34_density.

(** ... and kalepy.resample is KDE(...).resample(...). *)
Theorem C34_resample : forall n data size w refl keep kw chunk rn ix d K, get_distribution_class (kw_kernel kw) = Ok (DKnown d) ->
  (forall s, In s (kw_extra kw) -> s = "chunk"%string) ->
  snd (kde_new n data w (kw_bw kw) (kw_diag kw) (kw_rescale kw) d (kw_cov kw) (kw_neff kw) refl) = Ok K ->
  api_resample n data size w refl keep kw chunk rn ix = snd (resample_values K size keep chunk RNone true rn ix).
Proof. exact resample_is_kde. Qed.
Print Assumptions C34_resample.

Example C34_example : exists kw K f a, get_distribution_class (kw_kernel kw) = Ok (DKnown Gaussian) /\ kw_extra kw = []
  /\ snd (kde_call 1 [origin] WNone RNone kw) = Ok K /\ kde_pdf K 1 None PNone = Ok f
  /\ api_density 1 [origin] (Some (PtFlat [0; 1])) WNone RNone true false kw true (fun _ => Ok []) = Ok (PtFlat [0; 1], a)
  /\ api_pdf 1 [origin] (Some (PtFlat [0; 1])) WNone RNone PNone false kw true (fun _ => Ok []) = Err TypeError.
Proof.
  set (kw := mkKw (BwAtom (BNum 1)) (KaStr " Gaussian") (Some ident) None false None []).
  assert (HB := k12_built Gaussian 1 None). destruct (density_refl_exists_none 1 [origin] [1] Gaussian ident (k12 Gaussian 1 None) true HB (le_n 1)) as [f Hf].
  assert (HN : snd (kde_new 1 [origin] WNone (kw_bw kw) (kw_diag kw) (kw_rescale kw) Gaussian (kw_cov kw) (kw_neff kw) RNone) = Ok (k12 Gaussian 1 None)) by (apply k12_ok).
  assert (HC : snd (kde_call 1 [origin] WNone RNone kw) = Ok (k12 Gaussian 1 None)).
  { rewrite (kde_call_known 1 [origin] WNone RNone kw Gaussian); [exact HN|reflexivity|intros s []]. }
  destruct (flat_points _ true false None PNone [0; 1] f true (Ok []) Hf) as (a & E & _).
  exists kw, (k12 Gaussian 1 None), f, a. split; [reflexivity|]. split; [reflexivity|]. split; [exact HC|]. split; [exact Hf|]. split.
  - rewrite (density_is_kde 1 [origin] (Some (PtFlat [0; 1])) WNone RNone true false kw true (fun _ => Ok []) Gaussian (k12 Gaussian 1 None)); [exact E|reflexivity|intros s []|exact HN].
  - eapply pdf_typeerror, HC.
Qed.

(** * C35 *)
Theorem C35_names : forall s d, get_distribution_class (KaStr s) = Ok (DKnown d) <-> exists name, kernel_name name d /\ spells s name.
Proof. exact kernel_names. Qed.
Print Assumptions C35_names.

Theorem C35_unknown_names : forall s, (forall name d, kernel_name name d -> ~ spells s name) -> get_distribution_class (KaStr s) = Err ValueError.
Proof. exact kernel_unknown. Qed.
Print Assumptions C35_unknown_names.

Theorem C35_other_arguments : get_distribution_class KaNone = Ok (DKnown Gaussian) /\ (forall c, get_distribution_class (KaClass c) = Ok c)
  /\ get_distribution_class KaOther = Err ValueError.
Proof. exact kernel_other. Qed.
Print Assumptions C35_other_arguments.

(** Nothing but ValueError is raised. *)
Theorem C35_only_valueerror : forall a, (exists c, get_distribution_class a = Ok c) \/ get_distribution_class a = Err ValueError.
Proof. exact kernel_name_total. Qed.
Print Assumptions C35_only_valueerror.

Example C35_example : spells (String (ascii_of_nat 9) "EpanechNIKOV "%string) "epanechnikov" /\ get_distribution_class (KaStr " BOX") = Ok (DKnown Box)
  /\ get_distribution_class (KaStr "gauss") = Err ValueError.
Proof.
  split; [|split; reflexivity]. exists [ascii_of_nat 9], (list_ascii_of_string "EpanechNIKOV"), [ascii_of_nat 32].
  split; [reflexivity|]. split; [constructor; [left; reflexivity|constructor]|]. split; [constructor; [right; right; right; right; right; right; right; right; right; left; reflexivity|constructor]|].
  cbn. repeat (constructor; [first [left; reflexivity|right; vm_compute; split; [split; lia|reflexivity]]|]). constructor.
Qed.

(** * C79 *)
(** A flat sequence, of any length, as points for data of two or more dimensions. *)
Theorem C79_flat_points_rejected : forall n data ws d M st K (prob grid : bool) refl l fd auto, built_kde n data ws d M st K -> n <> 1%nat ->
  density_values K prob refl PNone grid (Some (PtFlat l)) fd auto = Err ValueError.
Proof. exact flat_points_rejected. Qed.
Print Assumptions C79_flat_points_rejected.

(** Rows of different lengths. *)
Theorem C79_jagged_points_rejected : forall K (prob : bool) refl rows fd auto r1 r2, In r1 rows -> In r2 rows -> length r1 <> length r2 ->
  density_values K prob refl PNone false (Some (PtRows rows)) fd auto = Err ValueError.
Proof. exact jagged_points_rejected. Qed.
Print Assumptions C79_jagged_points_rejected.

Example C79_example : exists K M, built_kde 2 data2 [1; 1; 1] Gaussian M None K
  /\ density_values K true None PNone false (Some (PtFlat [0; 0])) false (Ok []) = Err ValueError
  /\ exists a, density_values K true None PNone false (Some (PtRows [[0]; [0]])) false (Ok []) = Ok (PtRows [[0]; [0]], a) /\ shp a = [1%nat].
Proof.
  destruct (data2_built Gaussian None) as [K [M [N [_ [HB _]]]]]. exists K, M. split; [exact HB|].
  split; [apply (flat_points_rejected _ _ _ _ _ _ _ true false None [0; 0] false (Ok []) HB); discriminate|].
  destruct (density_refl_exists_none 2 data2 [1; 1; 1] Gaussian M K true HB (le_S _ _ (le_n 1))) as [f Hf].
  destruct (row_points K true None PNone [[0]; [0]] 1 f false (Ok []) Hf) as (a & E & V); [discriminate|intros r [<-|[<-|[]]]; reflexivity|right; intros q; discriminate|].
  exists a. split; [exact E|]. apply V.
Qed.

(** * C80 *)
Theorem C80_unknown_keyword : forall n data pts w refl (prob grid : bool) kw fd auto size keep chunk rn ix s K, In s (kw_extra kw) -> s <> "chunk"%string ->
  snd (kde_call n data w refl (known_only kw)) = Ok K ->
  api_density n data pts w refl prob grid kw fd auto = Err TypeError /\ api_resample n data size w refl keep kw chunk rn ix = Err TypeError.
Proof. exact unknown_keyword. Qed.
Print Assumptions C80_unknown_keyword.

Example C80_example : exists kw K, In "params"%string (kw_extra kw) /\ "params"%string <> "chunk"%string /\ snd (kde_call 1 [origin] WNone RNone (known_only kw)) = Ok K.
Proof.
  exists (mkKw (BwAtom (BNum 1)) KaNone (Some ident) None false None ["params"%string]), (k12 Gaussian 1 None).
  split; [left; reflexivity|]. split; [discriminate|].
  rewrite (kde_call_known 1 [origin] WNone RNone _ Gaussian); [apply k12_ok|reflexivity|intros s []].
Qed.


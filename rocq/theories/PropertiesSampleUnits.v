(** C154: samples and the units of the data. *)
From Verif Require Import Base ModelLinAlg ModelKernels ModelKDE ModelReflect ModelResample SpecReflect SpecKDE SpecSampleUnits ProofAffine ProofExamples ProofSampleUnits.
Open Scope R_scope.
Notation length := List.length.

(** * C154 *)
(** The same random numbers in other units: the samples in those units, or the same error; with the boundaries given to KDE ... *)
Theorem C154_units : forall n data w b diag resc d neffa refl s c K K' size keep chunk rn ix, (forall i, 0 < c i) -> kept_boundaries n refl -> in_range ix refl data ->
  kde_init n data w b diag resc d None neffa refl = Ok K ->
  kde_init n (map (aff s c) data) w b diag resc d None neffa (option_map (aff_refl s c 0) refl) = Ok K' ->
  snd (kde_resample K' size keep chunk RNone rn ix) = do l <- snd (kde_resample K size keep chunk RNone rn ix) ;; Ok (map (aff s c) l).
Proof. exact sample_units. Qed.
Print Assumptions C154_units.

(** ... and with reflect=False. *)
Theorem C154_unreflected : forall n data w b diag resc d neffa refl s c K K' size keep chunk rn ix, (forall i, 0 < c i) -> in_range ix None data ->
  kde_init n data w b diag resc d None neffa refl = Ok K ->
  kde_init n (map (aff s c) data) w b diag resc d None neffa (option_map (aff_refl s c 0) refl) = Ok K' ->
  snd (kde_resample K' size keep chunk RFalse rn ix) = do l <- snd (kde_resample K size keep chunk RFalse rn ix) ;; Ok (map (aff s c) l).
Proof. exact sample_units_plain. Qed.
Print Assumptions C154_unreflected.

(** Three data with a boundary in two units: one sample; in the other units twice that plus three. *)
Example C154_example : exists K K' x, kept_boundaries 2 (Some [Some (Some (-1), None); None]) /\ in_range (fun _ _ => O) (Some [Some (Some (-1), None); None]) data2
  /\ kde_init 2 data2 WNone BwNone false None Gaussian None None (Some [Some (Some (-1), None); None]) = Ok K
  /\ kde_init 2 (map (aff (fun _ => 3) (fun _ => 2)) data2) WNone BwNone false None Gaussian None None (Some [Some (Some (3 + 2 * -1), None); None]) = Ok K'
  /\ snd (kde_resample K (Some 1%nat) KeepNone 1 RNone (fun _ _ => mkRnd (fun _ => 1) (fun _ => 1) (fun _ _ => 1)) (fun _ _ => O)) = Ok [x] /\ 0 < x O
  /\ snd (kde_resample K' (Some 1%nat) KeepNone 1 RNone (fun _ _ => mkRnd (fun _ => 1) (fun _ => 1) (fun _ _ => 1)) (fun _ _ => O)) = Ok [fun i => 3 + 2 * x i].
Proof. exact ex_sample_units. Qed.

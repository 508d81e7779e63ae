(** C155: samples of a grid and the units of its edges. *)
From Verif Require Import Base ModelLinAlg ModelNd ModelSample SpecKDE SpecUtils SpecNd SpecSample SpecUnits SpecGridUnits ProofSample8 ProofGridUnits.
Open Scope R_scope.
Notation length := List.length.

(** * C155 *)
(** The same random numbers, the edges in other units and the density per unit volume in those units: the samples in those units, or the same error. *)
Theorem C155_units : forall ord edges dens mass smass s c nsamp interp rs rand, (forall i, 0 < c i) ->
  res_rel (positions_unit s c)
    (do G <- Sample_Grid ord (EList edges) dens mass None smass ;; sg_sample G nsamp interp rs rand)
    (do G <- Sample_Grid ord (EList (grid_unit s c edges)) (density_unit c dens) mass None smass ;; sg_sample G nsamp interp rs rand).
Proof. exact grid_units. Qed.
Print Assumptions C155_units.

(** The same for Sample_Outliers: the same number of samples, the positions (centres of the heavy bins and samples of the others) in the other units, the same weights. *)
Theorem C155_outliers : forall ord edges dens mass smass t s c pin pout interp rs rand, (forall i, 0 < c i) ->
  res_rel (outliers_unit s c)
    (do G <- Sample_Outliers ord (EList edges) dens t mass None smass ;; so_sample G t pin pout interp rs rand)
    (do G <- Sample_Outliers ord (EList (grid_unit s c edges)) (density_unit c dens) t mass None smass ;; so_sample G t pin pout interp rs rand).
Proof. exact outliers_units. Qed.
Print Assumptions C155_outliers.

(** With given masses the unit of the density does not matter. *)
Theorem C155_density_factor : forall ord ea dens m smass k nsamp interp rs rand, k <> 0 ->
  (do G <- Sample_Grid ord ea (map_nd (fun v => v / k) dens) (Some m) None smass ;; sg_sample G nsamp interp rs rand)
  = (do G <- Sample_Grid ord ea dens (Some m) None smass ;; sg_sample G nsamp interp rs rand).
Proof. exact density_factor. Qed.
Print Assumptions C155_density_factor.

(** Interpolated scalars are not the same: their masses are, the steps from the centre of the bin are those of the density. *)
Theorem C155_scalars_refuted : exists ord edges dens m sd s c rand G G' vals vals' l l', is_argsort ord /\ (forall i, 0 < c i)
  /\ grid_case (EList edges) edges dens (Some m) (Some sd) None m /\ unit_draws (length edges) 1 rand
  /\ Sample_Grid ord (EList edges) dens (Some m) (Some sd) None = Ok G /\ sg_sample G (Some 1) true None rand = Ok (vals, Some l)
  /\ Sample_Grid ord (EList (grid_unit s c edges)) (density_unit c dens) (Some m) (Some (density_unit c sd)) None = Ok G' /\ sg_sample G' (Some 1) true None rand = Ok (vals', Some l')
  /\ nth 0 l 0 <> nth 0 l' 0.
Proof. exact scalar_units_refuted. Qed.
Print Assumptions C155_scalars_refuted.

(** Two bins, five samples in two units. *)
Example C155_example : exists r r', (do G <- Sample_Grid some_argsort (EList [[0; 1; 3]]) (vec [1; 3; 1]) None None None ;; sg_sample G (Some 5) true None (fun _ _ => 1 / 3)) = Ok r
  /\ (do G <- Sample_Grid some_argsort (EList [[7 + 2 * 0; 7 + 2 * 1; 7 + 2 * 3]]) (density_unit (fun _ => 2) (vec [1; 3; 1])) None None None ;; sg_sample G (Some 5) true None (fun _ _ => 1 / 3)) = Ok r'
  /\ shp (fst r) = [1%nat; 5%nat] /\ forall j, (j < 5)%nat -> 0 <= at_ (fst r) [0%nat; j] <= 3 /\ at_ (fst r') [0%nat; j] = 7 + 2 * at_ (fst r) [0%nat; j].
Proof. exact ex_grid_units. Qed.
(** A heavy and a light bin in two units. *)
Example C155_outliers_example : exists z v w v', (do G <- Sample_Outliers some_argsort (EList [[0; 1; 3]]) (vec [1; 3; 1]) 3 None None None ;; so_sample G 3 None None true RsAbsent (fun _ _ => 1 / 3)) = Ok (z, v, w)
  /\ (do G <- Sample_Outliers some_argsort (EList [[7 + 2 * 0; 7 + 2 * 1; 7 + 2 * 3]]) (density_unit (fun _ => 2) (vec [1; 3; 1])) 3 None None None ;; so_sample G 3 None None true RsAbsent (fun _ _ => 1 / 3)) = Ok (z, v', w)
  /\ nth 0 w 0 = 4 /\ 1 < at_ v [0%nat; 0%nat] < 3 /\ at_ v' [0%nat; 0%nat] = 7 + 2 * at_ v [0%nat; 0%nat].
Proof. exact ex_outliers_units. Qed.

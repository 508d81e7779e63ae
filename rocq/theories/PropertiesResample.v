(** Properties C17-C21, C36-C38: resampling. *)
From Coquelicot Require Import Coquelicot.
From Verif Require Import Base ModelLinAlg SpecLinAlg ProofLinAlg ModelKernels ModelKDE ModelExtrema ModelReflect ModelResample SpecKDE SpecReflect SpecResample
  ProofKDE ProofReflect1 ProofReflectArg ProofExamples ProofTop2 ProofTop3 ProofResample ProofResample2 ProofResample3 ProofResample4 ProofResampleEx.
Open Scope R_scope.
Notation length := List.length.

(** * C17 *)
(** No call modifies a reflect argument in which no entry is True. *)
Theorem C17_no_true_not_modified : forall arg, no_true arg ->
  (forall n data w b diag resc d cova neffa, fst (kde_new n data w b diag resc d cova neffa arg) = arg)
  /\ (forall K (prob : bool) pdim p, fst (density_call K prob pdim arg p) = arg)
  /\ (forall K size keep chunk rn ix, fst (kde_resample K size keep chunk arg rn ix) = arg).
Proof. exact all_calls_no_true. Qed.
Print Assumptions C17_no_true_not_modified.

Example C17_no_true_example : no_true harg.
Proof. intros e [<-|[]]. split; [discriminate|]. intros k l E; injection E as <- <-. intros [H|[H|[]]]; discriminate H. Qed.

(** * C18 *)
(** Without reflection: each sample has the kept coordinates of one data point of positive weight, and
    in the others the same point plus coloured kernel noise. *)
Theorem C18_kept_verbatim : forall n data ws d M refl K size keep chunk arg rn ix,
  built_kde n data ws d M refl K -> clear_arg K arg ->
  (forall i, kept n keep i -> (i < n)%nat) -> valid_choice data ws (size_of data size) (ix O) ->
  exists ss U, snd (kde_resample K size keep chunk arg rn ix) = Ok ss /\ length ss = size_of data size
    /\ is_factor n M U
    /\ forall j, (j < size_of data size)%nat ->
        exists p w, In (p, w) (combine data ws) /\ 0 < w
          /\ forall i, (i < n)%nat ->
              (kept n keep i -> nth j ss pt0 i = p i)
              /\ (~ kept n keep i -> nth j ss pt0 i = p i + rsum n (fun l => U l i * dist_sample d n (rn O j) l)).
Proof. exact kept_verbatim. Qed.
Print Assumptions C18_kept_verbatim.

Theorem C18_keep_out_of_range : forall n data ws d M refl K size keep chunk arg rn ix p,
  built_kde n data ws d M refl K -> clear_arg K arg -> kept n keep p -> (n <= p)%nat ->
  snd (kde_resample K size keep chunk arg rn ix) = Err IndexError.
Proof. exact keep_out_of_range. Qed.
Print Assumptions C18_keep_out_of_range.

Example C18_example : exists K M, built_kde 2 data2 [1; 1; 1] Gaussian M None K /\ clear_arg K RNone
  /\ (forall i, kept 2 (KeepList [1%nat]) i -> (i < 2)%nat) /\ valid_choice data2 [1; 1; 1] (size_of data2 (Some 5%nat)) (fun j => Nat.modulo j 3).
Proof.
  destruct (data2_built Gaussian None) as [K [M [N [_ [HB _]]]]]. exists K, M. split; [exact HB|]. split; [|split].
  - right. split; [reflexivity|]. apply (built_inv _ _ _ _ _ _ _ HB).
  - intros i [<-|[]]; lia.
  - intros j _. assert (H : (Nat.modulo j 3 < 3)%nat) by (apply Nat.mod_upper_bound; lia). split; [exact H|].
    destruct (Nat.modulo j 3) as [|[|[|]]]; cbn; try lia; lra.
Qed.

(** * C19 *)
(** keep= and reflect= together never succeed ... *)
Theorem C19_keep_and_reflect_fails : forall n data ws d M st K size keep chunk arg (refl : reflspec) rn ix,
  built_kde n data ws d M st K -> bounds_used K arg refl -> (0 < size_of data size)%nat -> (0 < chunk)%nat ->
  (exists i, kept n keep i) -> (forall i, kept n keep i -> (i < n)%nat) ->
  snd (kde_resample K size keep chunk arg rn ix) = Err LinAlgError \/ snd (kde_resample K size keep chunk arg rn ix) = Err ValueError.
Proof. exact keep_and_reflect. Qed.
Print Assumptions C19_keep_and_reflect_fails.

(** ... with LinAlgError if the kept dimensions are not reflected, ValueError if one is. *)
Theorem C19_disjoint_linalgerror : forall n data ws d M st K size keep chunk arg (refl : reflspec) rn ix,
  built_kde n data ws d M st K -> bounds_used K arg refl -> (0 < size_of data size)%nat -> (0 < chunk)%nat ->
  (exists i, kept n keep i) -> (forall i, kept n keep i -> (i < n)%nat /\ nth i refl None = None) ->
  has_inside refl data ws -> snd (kde_resample K size keep chunk arg rn ix) = Err LinAlgError.
Proof. exact keep_disjoint_fails. Qed.
Print Assumptions C19_disjoint_linalgerror.

Theorem C19_reflected_valueerror : forall n data ws d M st K size keep chunk arg (refl : reflspec) rn ix,
  built_kde n data ws d M st K -> bounds_used K arg refl ->
  (forall i, kept n keep i -> (i < n)%nat) -> (exists i b, kept n keep i /\ nth i refl None = Some b) ->
  snd (kde_resample K size keep chunk arg rn ix) = Err ValueError.
Proof. exact keep_reflected_valueerror. Qed.
Print Assumptions C19_reflected_valueerror.

Example C19_example : exists K M refl arg, built_kde 2 data2 [1; 1; 1] Gaussian M None K /\ bounds_used K arg refl
  /\ has_inside refl data2 [1; 1; 1] /\ (forall i, kept 2 (KeepInt 1) i -> (i < 2)%nat /\ nth i refl None = None)
  /\ kept 2 (KeepInt 0) 0 /\ nth 0 refl None <> None.
Proof. exact ex_keep_reflect. Qed.

(** * C20 *)
Theorem C20_inside_and_count : forall n data ws d M st K size keep chunk arg (refl : reflspec) rn ix ss,
  built_kde n data ws d M st K -> bounds_used K arg refl ->
  snd (kde_resample K size keep chunk arg rn ix) = Ok ss ->
  length ss = size_of data size /\ forall x, In x ss -> strictly_inside refl x.
Proof. exact reflected_resample_bounds. Qed.
Print Assumptions C20_inside_and_count.

(** The result is the first [size] accepted candidates, RuntimeError if 10 draws per chunk are not
    enough. *)
Theorem C20_result_or_runtimeerror : forall n data ws d M st K size keep chunk arg (refl : reflspec) rn ix,
  built_kde n data ws d M st K -> bounds_used K arg refl -> (0 < chunk)%nat -> (forall i, ~ kept n keep i) ->
  has_inside refl data ws ->
  exists trials, (length trials <= 10 * num_chunks (size_of data size) chunk)%nat
    /\ (forall t, (t < length trials)%nat -> exists k, (1 <= k <= chunk)%nat /\
          resample_clear d n M (fst (pop refl data (kd_weights K))) (snd (pop refl data (kd_weights K))) KeepNone k (rn t) (ix t)
          = Ok (nth t trials []))
    /\ let accepted := flat_map (filter (inside refl)) trials in
       ((size_of data size <= length accepted)%nat
        /\ snd (kde_resample K size keep chunk arg rn ix) = Ok (firstn (size_of data size) accepted)
        \/ (length accepted < size_of data size)%nat /\ length trials = (10 * num_chunks (size_of data size) chunk)%nat
        /\ snd (kde_resample K size keep chunk arg rn ix) = Err RuntimeError).
Proof. exact reflected_resample. Qed.
Print Assumptions C20_result_or_runtimeerror.

(** Number of chunks: the least one whose total covers the requested size. *)
Theorem C20_num_chunks : forall size chunk, (0 < chunk)%nat ->
  (1 <= num_chunks size chunk)%nat /\ (size <= num_chunks size chunk * chunk)%nat
  /\ (num_chunks size chunk = 1%nat \/ ((num_chunks size chunk - 1) * chunk < size)%nat).
Proof. exact num_chunks_spec. Qed.
Print Assumptions C20_num_chunks.

(** Without any point or mirror image of positive weight inside: ValueError. *)
Theorem C20_nothing_inside : forall n data ws d M st K size keep chunk arg (refl : reflspec) rn ix,
  built_kde n data ws d M st K -> bounds_used K arg refl -> (0 < chunk)%nat -> (0 < size_of data size)%nat -> (forall i, ~ kept n keep i) ->
  ~ has_inside refl data ws -> snd (kde_resample K size keep chunk arg rn ix) = Err ValueError.
Proof. exact reflected_resample_empty. Qed.
Print Assumptions C20_nothing_inside.

(** Both outcomes occur. *)
Example C20_example : exists K ss, built_kde 1 hdata [1] Box ident None K /\ bounds_used K harg hspec /\ has_inside hspec hdata [1]
  /\ snd (kde_resample K (Some 1%nat) KeepNone 1 harg (fun _ _ => mkRnd (fun _ => 1) (fun _ => 0) (fun _ _ => 0)) (fun _ _ => O)) = Ok ss
  /\ snd (kde_resample K (Some 1%nat) KeepNone 1 harg (fun _ _ => mkRnd (fun _ => 1) (fun _ => 0) (fun _ _ => Ropp 1)) (fun _ _ => O)) = Err RuntimeError.
Proof. exact ex_reflected_outcomes. Qed.

(** * C21 *)
(** Data strictly inside: candidates are exactly un-reflected samples, the mirror images have no
    effect. *)
Theorem C21_candidates_unreflected : forall n data ws d M st K size keep chunk arg (refl : reflspec) rn ix,
  built_kde n data ws d M st K -> bounds_used K arg refl -> (0 < chunk)%nat -> (forall i, ~ kept n keep i) ->
  (forall p, In p data -> strictly_inside refl p) ->
  exists trials, (length trials <= 10 * num_chunks (size_of data size) chunk)%nat
    /\ (forall t, (t < length trials)%nat -> exists k, (1 <= k <= chunk)%nat /\
          snd (kde_resample K (Some k) KeepNone chunk RFalse (fun _ => rn t) (fun _ => ix t)) = Ok (nth t trials []))
    /\ let accepted := flat_map (filter (inside refl)) trials in
       ((size_of data size <= length accepted)%nat
        /\ snd (kde_resample K size keep chunk arg rn ix) = Ok (firstn (size_of data size) accepted)
        \/ (length accepted < size_of data size)%nat /\ length trials = (10 * num_chunks (size_of data size) chunk)%nat
        /\ snd (kde_resample K size keep chunk arg rn ix) = Err RuntimeError).
Proof. exact candidates_unreflected. Qed.
Print Assumptions C21_candidates_unreflected.

(** One point at 1/2, Box kernel of half-width 1, boundary at 0.  The reflected pdf puts 1/2 of its
    mass on [0, 1/2]; a candidate is a function of u, uniform on [-1, 1), accepted for u > -1/2, and
    below 1/2 for u <= 0: a third of the accepted ones. *)
Theorem C21_follows_density_refuted : exists K (refl : reflspec) arg f,
  built_kde 1 hdata [1] Box ident None K /\ bounds_used K arg refl /\ (forall p, In p hdata -> strictly_inside refl p)
  /\ kde_density K true 1 (Some refl) PNone = Ok f
  /\ is_RInt (fun t => f (pt1 t)) 0 (1 / 2) (1 / 2) /\ is_RInt (fun t => f (pt1 t)) 0 (3 / 2) 1
  /\ (forall chunk rn ix, valid_choice hdata [1] 1 (ix O) ->
      exists s, snd (kde_resample K (Some 1%nat) KeepNone chunk RFalse rn ix) = Ok [s]
        /\ let u := r_sym (rn O O) O O in
           (strictly_inside refl s <-> - (1 / 2) < u) /\ (s O <= 1 / 2 <-> u <= 0))
  /\ (0 - - (1 / 2)) / (1 - - (1 / 2)) <> 1 / 2.
Proof. exact reflected_distribution_differs. Qed.
Print Assumptions C21_follows_density_refuted.

(** * C36 *)
Theorem C36_samples_in_support : forall d n r, (1 <= n)%nat -> valid_rnd n r ->
  d = Box \/ d = Triweight \/ (d = Parabola /\ n = 1%nat) -> norm2 n (dist_sample d n r) <= 1.
Proof. exact sample_in_ball. Qed.
Print Assumptions C36_samples_in_support.

Theorem C36_parabola_refuted : forall n, (2 <= n)%nat -> exists r, valid_rnd n r /\ 1 < norm2 n (dist_sample Parabola n r).
Proof. exact parabola_outside. Qed.
Print Assumptions C36_parabola_refuted.

Example C36_example : valid_rnd 3 (mkRnd (fun _ => 2) (fun _ => 1 / 3) (fun _ _ => 1 / 2)).
Proof. split; [intros; cbn; lra|]. split; [intros; cbn; lra|]. exists 2%nat. split; [lia|cbn; lra]. Qed.

(** * C37 *)
(** Exact at the table knots of a cumulative function running from 0 to 1 ... *)
Theorem C37_cdf : triweight_cdf 0 = 0 /\ triweight_cdf 1 = 1
  /\ (forall x y, 0 <= x -> x < y -> y <= 1 -> triweight_cdf x < triweight_cdf y)
  /\ (forall x, 0 <= x <= 1 -> derivable_pt_lim triweight_cdf x (2 * dist_evaluate Triweight 1 (fun _ => x))).
Proof. exact triweight_cdf_facts. Qed.
Print Assumptions C37_cdf.

Theorem C37_inverse_at_knots : forall i, (i <= tab_m)%nat -> triweight_inverse (triweight_cdf (INR i / INR tab_m)) = Ok (INR i / INR tab_m).
Proof. exact (fun i => inverse_knots tab_m i tab_m_pos). Qed.
Print Assumptions C37_inverse_at_knots.

(** ... total on [0, 1] with values in [0, 1], strictly increasing, and within one table step of the
    exact inverse. *)
Theorem C37_inverse_range : forall u, 0 <= u <= 1 -> exists r, triweight_inverse u = Ok r /\ 0 <= r <= 1.
Proof. exact (fun u => inverse_range tab_m u tab_m_pos). Qed.
Print Assumptions C37_inverse_range.

Theorem C37_inverse_increasing : forall u v, 0 <= u -> u < v -> v <= 1 ->
  exists r s, triweight_inverse u = Ok r /\ triweight_inverse v = Ok s /\ r < s.
Proof. exact (fun u v => inverse_mono tab_m u v tab_m_pos). Qed.
Print Assumptions C37_inverse_increasing.

Theorem C37_inverse_accuracy : forall u x, 0 <= x <= 1 -> triweight_cdf x = u ->
  exists r, triweight_inverse u = Ok r /\ Rabs (r - x) <= / INR tab_m.
Proof. exact (fun u x => inverse_accuracy tab_m u x tab_m_pos). Qed.
Print Assumptions C37_inverse_accuracy.

Example C37_example : triweight_inverse 1 = Ok 1 /\ triweight_inverse 0 = Ok 0.
Proof. exact ex_triweight. Qed.

(** * C38 *)
Theorem C38_near_a_data_point : forall data ws d M refl K size chunk arg rn ix,
  built_kde 1 data ws d M refl K -> finite d = true -> clear_arg K arg ->
  (forall j, valid_rnd 1 (rn O j)) -> valid_choice data ws (size_of data size) (ix O) ->
  exists ss, snd (kde_resample K size KeepNone chunk arg rn ix) = Ok ss /\ length ss = size_of data size
    /\ forall s, In s ss -> exists p w, In (p, w) (combine data ws) /\ 0 < w /\ Rabs (s O - p O) <= sqrt (M O O).
Proof. exact sample_near_data. Qed.
Print Assumptions C38_near_a_data_point.

Theorem C38_inside_extrema : forall data ws d M K size chunk arg rn ix ppf ext,
  built_kde 1 data ws d M None K -> finite d = true -> (arg = RFalse \/ arg = RNone) ->
  (forall j, valid_rnd 1 (rn O j)) -> valid_choice data ws (size_of data size) (ix O) ->
  kde_extrema K ppf None = Some (Ok ext) ->
  exists ss, snd (kde_resample K size KeepNone chunk arg rn ix) = Ok ss
    /\ forall s, In s ss -> fst (nth 0 ext (0, 0)) < s O < snd (nth 0 ext (0, 0)).
Proof. exact sample_in_extrema. Qed.
Print Assumptions C38_inside_extrema.

Example C38_example : exists K ext ppf, built_kde 1 hdata [1] Box ident None K /\ kde_extrema K ppf None = Some (Ok ext)
  /\ valid_choice hdata [1] 3 (fun _ => O).
Proof. exact ex_extrema. Qed.

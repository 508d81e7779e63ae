(** Proofs about dist1d and hist1d. *)
From Coq Require Import String ZArith Permutation FunctionalExtensionality.
From Verif Require Import Base ModelLinAlg SpecLinAlg ProofLinAlg SpecIntegral ProofIntegral ModelKernels SpecKernels ProofKernels ModelKDE SpecKDE
  ProofMarginal ProofTop2 ModelReflect ModelExtrema ModelInterp ModelResample ModelUtils ModelNd ModelGrid ModelSample ModelApi ModelPlot ModelDist
  SpecUtils SpecPlot SpecApi SpecDist ProofUtils3 ProofUtils4 ProofExtrema ProofApi.
Open Scope R_scope.
Notation length := List.length.

(* ------------------------------------------------------------ integral of a projected density *)
Lemma kernel_density_sub d n M ps data w : (forall q, In q ps -> (q < n)%nat) ->
  kernel_density (mkKernel d n M) (length ps) (length ps) data w None (Some ps)
  = kernel_density (mkKernel d (length ps) (submat ps M)) (length ps) (length ps) data w None None.
Proof.
  intros Hq. unfold kernel_density. cbn [k_ndim k_matrix k_dist bind fst snd].
  assert (Hf : forallb (fun p => Nat.ltb p n) ps = true).
  { apply forallb_forall. intros q Hin. apply Nat.ltb_lt. apply Hq, Hin. }
  rewrite Hf, Nat.eqb_refl. reflexivity.
Qed.
Lemma params_integral : forall n data ws d M K (prob : bool) ps base, built_kde n data ws d M None K -> n <> 1%nat -> NoDup ps -> ps <> [] ->
  (forall q, In q ps -> (q < n)%nat) ->
  exists g, kde_density K prob (length ps) None (PList ps) = Ok g /\ is_tintN (length ps) g base (mass prob ws).
Proof.
  intros n data ws d M K prob ps base HB Hn1 Hnd Hne' Hq.
  destruct (built_inv _ _ _ _ _ _ _ HB) as (En & Ed & Hne & Er & Ew & Hl & Hnn & Hp & Et & Ek & Hs & Hpd).
  rewrite (density_as_kernel_params _ _ _ _ _ _ prob ps HB Hn1 Hq), (kernel_density_sub _ _ _ _ _ _ Hq).
  destruct (density_integral d (length ps) (submat ps M) (map (select ps) data) ws base) as [f [Hf Hi]].
  - destruct ps; [congruence|cbn [length]; lia].
  - exact (submat_sym n ps M Hs Hq).
  - exact (submat_posdef n ps M Hpd Hnd Hq).
  - rewrite map_length. exact Hl.
  - rewrite Hf. cbn [bind]. eexists. split; [reflexivity|]. rewrite <- (Rmult_1_r (mass prob ws)). apply scaled_tint; [exact Hp|].
    rewrite Rmult_1_r. exact Hi.
Qed.
Lemma param_integral n data ws d M K (prob : bool) q base : built_kde n data ws d M None K -> (q < n)%nat ->
  exists g, kde_density K prob 1 None (PInt q) = Ok g /\ is_tintN 1 g base (mass prob ws).
Proof.
  intros HB Hq. destruct (built_inv _ _ _ _ _ _ _ HB) as (En & _).
  destruct (Nat.eq_dec n 1) as [-> |Hn].
  - rewrite params_1d by exact En. replace q with 0%nat by lia. apply (top_integral 1 data ws d M); [lia|exact HB].
  - rewrite params_int_list by congruence. apply (params_integral n data ws d M K prob [q]); try assumption.
    + constructor; [intros []|constructor].
    + discriminate.
    + intros q' [<-|[]]. exact Hq.
Qed.

(* ------------------------------------------------------------ the parts of dist1d *)
Definition curve_of (pts : kde -> res (list (list R))) (src : source1) (data : list R) (ws : option (list R)) (edges : edge1)
    (probability : bool) (param : nat) (r : R) : res (list R * list R) :=
  do kfp <- match src with
            | S1Kde K flat p => Ok (K, flat, p)
            | _ => do K <- kde_of_vector data ws ;; Ok (K, true, pts K)
            end ;;
  let '(K, flat, p) := kfp in
  do xy <- density_values K probability None (PInt param) false (edge_points edges) flat p ;;
  plot_curve (fst xy) (map_nd (fun v => v * r) (snd xy)).

Lemma resolve_int K q : (q < kd_ndim K)%nat -> exists ops, resolve_params K (PInt q) = Ok ops.
Proof.
  intros H. unfold resolve_params. destruct (Nat.eqb_spec (kd_ndim K) 1) as [E|E].
  - replace q with 0%nat by lia. eexists; reflexivity.
  - apply Nat.ltb_lt in H. rewrite H. eexists; reflexivity.
Qed.
Lemma line_nth (l : list R) j : (j < length l)%nat -> (fun d => nth j (nth d [l] []) 0) = line_pt (nth j l 0).
Proof. intros H. apply functional_extensionality. intros [|[|d]]; cbn; try reflexivity; destruct j; reflexivity. Qed.
Lemma flatten_vector m v a : vector_of m v a -> flatten_nd a = map v (seq 0 m).
Proof.
  intros [S V]. unfold flatten_nd. rewrite S. cbn [all_idx map].
  assert (G : forall l, (forall j, In j l -> (j < m)%nat) -> map (at_ a) (flat_map (fun i => [[i]]) l) = map v l).
  { induction l as [|i l IH]; intros H; [reflexivity|]. cbn [flat_map app map]. rewrite V by (apply H; left; reflexivity).
    rewrite IH by (intros; apply H; right; assumption). reflexivity. }
  apply G. intros j Hj. apply in_seq in Hj. lia.
Qed.
Lemma flatten_value v a : single_value v a -> flatten_nd a = [v].
Proof. intros [S V]. unfold flatten_nd. rewrite S. cbn. rewrite V. reflexivity. Qed.
Lemma map_vector g m v a : vector_of m v a -> vector_of m (fun j => g (v j)) (map_nd g a).
Proof. intros [S V]. split; [exact S|]. intros j Hj. cbn. rewrite V by exact Hj. reflexivity. Qed.
Lemma map_value g v a : single_value v a -> single_value (g v) (map_nd g a).
Proof. intros [S V]. split; [exact S|]. cbn. rewrite V. reflexivity. Qed.
Lemma seq_nth_map (l : list R) : map (fun j => nth j l 0) (seq 0 (length l)) = l.
Proof.
  apply (nth_ext _ _ 0 0); [rewrite map_length, seq_length; reflexivity|]. intros k Hk. rewrite map_length, seq_length in Hk.
  set (f := fun j => nth j l 0). rewrite (nth_indep _ 0 (f 0%nat)) by (rewrite map_length, seq_length; exact Hk).
  rewrite map_nth, seq_nth by exact Hk. reflexivity.
Qed.

(** Edges given: the curve goes through the density at the edges. *)
Lemma curve_vector K flat p l (prob : bool) param r f : kde_density K prob 1 None (PInt param) = Ok f ->
  exists xy, density_values K prob None (PInt param) false (edge_points (EdVec l)) flat p = Ok xy
  /\ plot_curve (fst xy) (map_nd (fun v => v * r) (snd xy)) = Ok (l, map (fun x => f (line_pt x) * r) l).
Proof.
  intros Hf. destruct (flat_points K prob false None (PInt param) l f flat p Hf) as (a & E & Hv & Hs).
  exists (PtFlat l, a). split; [exact E|]. cbn [fst snd plot_curve]. f_equal. f_equal.
  destruct (Nat.eq_dec (length l) 1) as [H1|H1].
  - rewrite (flatten_value _ _ (map_value (fun v => v * r) _ _ (Hs H1))). destruct l as [|x [|y l]]; try discriminate H1.
    rewrite (line_nth [x] 0) by (cbn; lia). reflexivity.
  - rewrite (flatten_vector _ _ _ (map_vector (fun v => v * r) _ _ _ (Hv H1))).
    transitivity (map (fun x => f (line_pt x) * r) (map (fun j => nth j l 0) (seq 0 (length l)))); [|rewrite seq_nth_map; reflexivity].
    rewrite map_map. apply map_ext_in. intros j Hj. apply in_seq in Hj.
    rewrite line_nth by lia. reflexivity.
Qed.

Lemma the_weights_coords param data ow : the_weights (coords param data) ow = wlist data ow.
Proof. destruct ow; [reflexivity|]. unfold the_weights, coords, wlist. rewrite map_map. reflexivity. Qed.

Lemma covers_area data es wo (prob : bool) : covers es data -> length (the_weights data wo) = length data -> lsum (the_weights data wo) <> 0 ->
  exists h, histogram data es wo true prob = Ok (h, es) /\ bar_area h es = mass prob (the_weights data wo).
Proof.
  intros (H2 & Hi & Hin) Hl Hw. destruct (histogram_integral data es wo prob Hl Hi H2) as [h [H E]].
  destruct (histogram_integral_one data es wo Hl Hi H2 Hin Hw) as [h1 [H1 E1]].
  exists h. split; [exact H|]. unfold bar_area. rewrite E. clear E H.
  destruct (histogram_integral data es wo true Hl Hi H2) as [h2 [H2' E2]]. rewrite H1 in H2'. injection H2' as <-.
  rewrite E1 in E2. unfold mass. destruct prob; [symmetry; exact E2|].
  apply (Rmult_eq_compat_r (lsum (the_weights data wo))) in E2. unfold Rdiv in *. rewrite Rmult_assoc, Rinv_l, Rmult_1_r, Rmult_1_l in E2 by exact Hw.
  rewrite Rinv_1, Rmult_1_r. symmetry. exact E2.
Qed.
Lemma histogram_of_vec auto data isarr es wo (dens prob : bool) : isarr = true \/ wo <> None \/ prob = false ->
  histogram_of auto data isarr (EdVec es) wo dens prob = histogram data es wo dens prob.
Proof.
  intros H. unfold histogram_of. cbn [bind]. destruct (histogram _ _ _ _ _) as [h|e]; [|reflexivity]. cbn [bind].
  destruct wo; [reflexivity|]. destruct H as [-> | [H| ->]]; [|congruence|reflexivity]. rewrite Bool.andb_false_r. reflexivity.
Qed.

Lemma tint_line g l base : is_tintN 1 g base l -> (forall i, base i = 0) -> is_tint (fun x => g (line_pt x)) l.
Proof.
  intros [h [Hh Hi]] Hb. cbn [is_tintN] in Hh. replace (fun x => g (line_pt x)) with h; [exact Hi|].
  apply functional_extensionality. intros t. rewrite <- (Hh t). f_equal. apply functional_extensionality. intros [|i]; unfold upd; cbn; [reflexivity|apply Hb].
Qed.


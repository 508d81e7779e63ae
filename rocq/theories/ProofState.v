(** Caches are transparent. *)
From Coq Require Import FunctionalExtensionality.
From Verif Require Import Base ModelLinAlg ModelKernels ModelKDE ModelExtrema ModelInterp ModelResample ModelUtils ModelNd ModelGrid ModelState.
Open Scope R_scope.
Notation length := List.length.

Definition kgood (K : kernel) (st : kcache) : Prop :=
  (forall v, kc_inv st = Some v -> v = minv (k_ndim K) (k_matrix K)) /\ (forall v, kc_norm st = Some v -> v = sqrt (Rabs (mdet (k_ndim K) (k_matrix K)))).
Lemma kgood0 K : kgood K kcache0.
Proof. split; discriminate. Qed.
Lemma get_inv_good K st : kgood K st -> fst (get_inv K st) = minv (k_ndim K) (k_matrix K) /\ kgood K (snd (get_inv K st)).
Proof.
  intros [H1 H2]. unfold get_inv. destruct (kc_inv st) as [v|] eqn:E; cbn [fst snd].
  - split; [apply H1; reflexivity|]. split; [rewrite E; exact H1|exact H2].
  - split; [reflexivity|]. split; cbn [kc_inv kc_norm]; [congruence|exact H2].
Qed.
Lemma get_norm_good K st : kgood K st -> fst (get_norm K st) = sqrt (Rabs (mdet (k_ndim K) (k_matrix K))) /\ kgood K (snd (get_norm K st)).
Proof.
  intros [H1 H2]. unfold get_norm. destruct (kc_norm st) as [v|] eqn:E; cbn [fst snd].
  - split; [apply H2; reflexivity|]. split; [exact H1|rewrite E; exact H2].
  - split; [reflexivity|]. split; cbn [kc_inv kc_norm]; [exact H1|congruence].
Qed.
(** Any kernel state reached: the answer is that of the kernel without caches. *)
Theorem kernel_cache K st pdim ddim data w refl ps : kgood K st ->
  fst (kernel_density_st K st pdim ddim data w refl ps) = kernel_density K pdim ddim data w refl ps /\ kgood K (snd (kernel_density_st K st pdim ddim data w refl ps)).
Proof.
  intros H. unfold kernel_density_st. destruct (get_inv_good K st H) as [E1 G1]. destruct (get_inv K st) as [i st1]. cbn [fst snd] in *.
  destruct (get_norm_good K st1 G1) as [E2 G2]. destruct (get_norm K st1) as [m st2]. cbn [fst snd] in *. split; [|exact G2]. subst i m.
  unfold kernel_density. destruct ps as [l|]; [|reflexivity]. destruct (forallb _ l); [|reflexivity]. destruct (Nat.eqb pdim (length l)); reflexivity.
Qed.

(** The grid the object would compute, and its cdf. *)
Definition fresh_points (o : obj) : res (list (list R)) := kde_points (ob_sorter o) (ob_kde o) (ob_bw o) (ob_ext o) (ob_edges o).
Definition fresh_cdf (o : obj) (pg rg : bool) (x : list R) : res flt :=
  if pg then Err NotImplementedError else if rg then Err NotImplementedError else do g <- fresh_points o ;; kde_cdf (ob_kde o) g false false x.
Definition fresh (o : obj) (c : call) : answer :=
  match c with
  | CallPoints => APoints (fresh_points o)
  | CallDensity prob pdim refl p => ADensity (kde_density (ob_kde o) prob pdim refl p)
  | CallCdf pg rg x => ACdf (fresh_cdf o pg rg x)
  end.
Definition ogood (o : obj) (st : ostate) : Prop :=
  (forall kern, kd_kernel (ob_kde o) = Some kern -> kgood kern (os_kernel st))
  /\ (match os_points st with PSpec e => e = ob_edges o /\ os_check st = true | PGrid g => os_check st = false /\ fresh_points o = Ok g end)
  /\ (forall fn, os_cdf st = Some fn -> forall x, fresh_cdf o false false x = Ok (cdf_apply fn x)).
Lemma ogood0 o : ogood o (ostate0 o).
Proof. split; [|split]; cbn; [intros; apply kgood0|split; reflexivity|discriminate]. Qed.
Lemma points_good o st : ogood o st -> fst (points_st o st) = fresh_points o /\ ogood o (snd (points_st o st)).
Proof.
  intros [H1 [H2 H3]]. unfold points_st. destruct (os_points st) as [e|g] eqn:E.
  - destruct H2 as [-> Hc]. fold (fresh_points o). destruct (fresh_points o) as [g|x] eqn:Eg; cbn [fst snd]; (split; [reflexivity|]).
    + split; [exact H1|]. split; [|exact H3]. cbn [os_points os_check]. split; [reflexivity|exact Eg].
    + split; [exact H1|]. split; [rewrite E; split; [reflexivity|exact Hc]|exact H3].
  - destruct H2 as [Hc Hg]. rewrite Hc. cbn [fst snd]. split; [symmetry; exact Hg|]. split; [exact H1|]. split; [rewrite E; split; assumption|exact H3].
Qed.
Lemma density_good o st prob pdim refl p : ogood o st ->
  fst (density_st o st prob pdim refl p) = kde_density (ob_kde o) prob pdim refl p /\ ogood o (snd (density_st o st prob pdim refl p)).
Proof.
  intros G. assert (G' := G). destruct G' as [H1 [H2 H3]]. unfold density_st, kde_density. destruct (resolve_params (ob_kde o) p) as [ops|x]; cbn [bind]; [|split; [reflexivity|exact G]].
  cbv zeta. match goal with |- context [match ?r with Some _ => negb _ | None => false end] => set (refl1 := r) end.
  match goal with |- context [if ?b then (Err ValueError, st) else _] => destruct b; [split; [reflexivity|exact G]|] end.
  destruct (kd_kernel (ob_kde o)) as [kern|] eqn:Ek; [|split; [reflexivity|exact G]].
  match goal with |- context [kernel_density_st kern ?s ?a ?b ?c ?d ?e ?f] => destruct (kernel_cache kern s a b c d e f (H1 kern eq_refl)) as [E1 E2]; destruct (kernel_density_st kern s a b c d e f) as [r kst] end.
  cbn [fst snd] in *. rewrite E1. split; [reflexivity|]. split; [|split; assumption]. intros k Hk. assert (k = kern) by congruence. subst k. exact E2.
Qed.
Lemma cdf_good o st pg rg x : ogood o st -> fst (cdf_st o st pg rg x) = fresh_cdf o pg rg x /\ ogood o (snd (cdf_st o st pg rg x)).
Proof.
  intros G. unfold cdf_st, fresh_cdf. destruct pg; [split; [reflexivity|exact G]|]. destruct rg; [split; [reflexivity|exact G]|].
  destruct (os_cdf st) as [fn|] eqn:Ec.
  - cbn [fst snd]. split; [|exact G]. destruct G as [_ [_ G3]]. specialize (G3 fn Ec x). unfold fresh_cdf in G3. symmetry. exact G3.
  - destruct (points_good o st G) as [E1 G1]. destruct (points_st o st) as [rgd st1]. cbn [fst snd] in *. rewrite E1. destruct (fresh_points o) as [grid|e] eqn:Eg; cbn [bind]; [|split; [reflexivity|exact G1]].
    destruct (density_good o st1 true (length grid) None PNone G1) as [E2 G2]. destruct (density_st o st1 true (length grid) None PNone) as [rf st2]. cbn [fst snd] in *. rewrite E2.
    assert (Hc : forall y, kde_cdf (ob_kde o) grid false false y = do c <- (do f <- kde_density (ob_kde o) true (length grid) None PNone ;; cumtrapz (reshape_nd (map (@length R) grid) (map f (mesh_columns grid))) grid true None) ;;
        (if negb (forallb ascending grid) then Err ValueError else Ok (cdf_apply (grid, if Reqb (nd_max c) 0 then None else Some (map_nd (fun v => v / nd_max c) c)) y))).
    { intros y. unfold kde_cdf, density_grid. destruct (kde_density (ob_kde o) true (length grid) None PNone) as [f|]; cbn [bind]; [|reflexivity]. destruct (cumtrapz _ _ _ _) as [c|]; cbn [bind]; [|reflexivity].
      destruct (negb _); [reflexivity|]. unfold cdf_apply. cbn [fst snd]. destruct (Reqb (nd_max c) 0); reflexivity. }
    rewrite Hc. destruct (do f <- kde_density (ob_kde o) true (length grid) None PNone ;; cumtrapz (reshape_nd (map (@length R) grid) (map f (mesh_columns grid))) grid true None) as [c|e] eqn:Ecc; cbn [bind]; [|split; [reflexivity|exact G2]].
    destruct (negb (forallb ascending grid)) eqn:Ea; [split; [reflexivity|exact G2]|]. cbn [fst snd]. split; [reflexivity|]. destruct G2 as [A [B C]]. split; [exact A|]. split; [exact B|].
    cbn [os_cdf]. intros fn Hfn y. injection Hfn as <-. unfold fresh_cdf. rewrite Eg. cbn [bind]. rewrite Hc. reflexivity.
Qed.
Lemma step_good o st c : ogood o st -> fst (step o st c) = fresh o c /\ ogood o (snd (step o st c)).
Proof.
  intros G. destruct c as [|prob pdim refl p|pg rg x]; cbn [step fresh].
  - destruct (points_good o st G) as [E1 G1]. destruct (points_st o st). cbn [fst snd] in *. subst. split; [reflexivity|assumption].
  - destruct (density_good o st prob pdim refl p G) as [E1 G1]. destruct (density_st o st prob pdim refl p). cbn [fst snd] in *. subst. split; [reflexivity|assumption].
  - destruct (cdf_good o st pg rg x G) as [E1 G1]. destruct (cdf_st o st pg rg x). cbn [fst snd] in *. subst. split; [reflexivity|assumption].
Qed.
(** C70 *)
Theorem history_fresh o cs : history o (ostate0 o) cs = map (fresh o) cs.
Proof.
  enough (H : forall st, ogood o st -> history o st cs = map (fresh o) cs) by (apply H, ogood0).
  induction cs as [|c cs IH]; intros st G; cbn [history map]; [reflexivity|]. destruct (step_good o st c G) as [E1 G1]. destruct (step o st c) as [a st']. cbn [fst snd] in *. subst a. rewrite IH by exact G1. reflexivity.
Qed.
Theorem history_fresh_object o cs : history o (ostate0 o) cs = map (fun c => fst (step o (ostate0 o) c)) cs.
Proof. rewrite history_fresh. apply map_ext. intros c. symmetry. apply (step_good o (ostate0 o) c), ogood0. Qed.
Theorem history_values o cs i a : nth_error (history o (ostate0 o) cs) i = Some a ->
  match nth_error cs i with
  | Some CallPoints => a = APoints (kde_points (ob_sorter o) (ob_kde o) (ob_bw o) (ob_ext o) (ob_edges o))
  | Some (CallDensity prob pdim refl p) => a = ADensity (kde_density (ob_kde o) prob pdim refl p)
  | Some (CallCdf pg rg x) => a = ACdf (if pg then Err NotImplementedError else if rg then Err NotImplementedError else
      do g <- kde_points (ob_sorter o) (ob_kde o) (ob_bw o) (ob_ext o) (ob_edges o) ;; kde_cdf (ob_kde o) g false false x)
  | None => False
  end.
Proof.
  rewrite history_fresh. intros H. destruct (nth_error cs i) as [c|] eqn:E.
  - rewrite (map_nth_error _ _ _ E) in H. injection H as <-. destruct c; reflexivity.
  - apply nth_error_None in E. assert (E2 : nth_error (map (fresh o) cs) i = None) by (apply nth_error_None; rewrite map_length; exact E). congruence.
Qed.
(** C50 *)
Theorem points_repeated o cs i j a b : nth_error cs i = Some CallPoints -> nth_error cs j = Some CallPoints ->
  nth_error (history o (ostate0 o) cs) i = Some a -> nth_error (history o (ostate0 o) cs) j = Some b -> a = b.
Proof.
  intros Hi Hj Ha Hb. apply history_values in Ha. apply history_values in Hb. rewrite Hi in Ha. rewrite Hj in Hb. congruence.
Qed.
Theorem kernel_cache_history K l : khistory K kcache0 l = map (fun a => fst (kcall K kcache0 a)) l
  /\ khistory K kcache0 l = map (fun a : kargs => let '(pdim, ddim, data, w, refl, ps) := a in kernel_density K pdim ddim data w refl ps) l.
Proof.
  assert (H : forall st, kgood K st -> khistory K st l = map (fun a : kargs => let '(pdim, ddim, data, w, refl, ps) := a in kernel_density K pdim ddim data w refl ps) l).
  { induction l as [|[[[[[pdim ddim] data] w] refl] ps] l IH]; intros st G; cbn [khistory map]; [reflexivity|]. cbn [kcall].
    destruct (kernel_cache K st pdim ddim data w refl ps G) as [E1 G1]. destruct (kernel_density_st K st pdim ddim data w refl ps) as [v st']. cbn [fst snd] in *. subst v. rewrite IH by exact G1. reflexivity. }
  split; [|apply H, kgood0]. rewrite (H kcache0 (kgood0 K)). apply map_ext. intros [[[[[pdim ddim] data] w] refl] ps]. cbn [kcall]. symmetry. apply (kernel_cache K kcache0), kgood0.
Qed.

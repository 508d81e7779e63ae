From Verif Require Import Base ModelLinAlg ModelKernels SpecKernels ModelKDE ModelUtils ModelNd ModelGrid ModelResample SpecIntegral SpecNd SpecGrid ModelClasses SpecClasses
  ProofKernels ProofNd ProofNd2 ProofGrid.
Open Scope R_scope.
Notation length := List.length.

Lemma evaluate_normalised d n : (1 <= n)%nat -> normalised d n (dist_evaluate d n).
Proof.
  intros H. split; [intros base; apply dist_evaluate_integral, H|]. exists (/ dist_norm d n). split; [apply Rinv_0_lt_compat, dist_norm_pos, H|].
  intros p. unfold dist_evaluate. rewrite prof_spec. unfold Rdiv. rewrite Rmult_comm. reflexivity.
Qed.
(** Every shape of the argument. *)
Lemma classes_evaluate : forall d a, (1 <= coords_of a)%nat ->
  exists g, normalised d (coords_of a) g
  /\ shp (evaluate_nd d a) = (match shp a with [] => [1%nat] | [n] => [n] | _ :: s => s end)
  /\ forall idx, at_ (evaluate_nd d a) idx = g (point_at a idx).
Proof.
  intros d a H. exists (dist_evaluate d (coords_of a)). split; [apply evaluate_normalised, H|].
  unfold evaluate_nd, rows_of, coords_of, point_at, dist_evaluate, norm2, norm2_nd. destruct (shp a) as [|n [|m s]] eqn:E; cbn [shp tl hd at_].
  - split; reflexivity.
  - split; reflexivity.
  - rewrite E. cbn [hd tl]. split; reflexivity.
Qed.
Lemma below_one x : 0 <= x -> (sqrt x < 1 <-> x < 1).
Proof.
  intros H. split; intros L.
  - rewrite <- (sqrt_sqrt x H). pose proof (sqrt_pos x). nra.
  - rewrite <- sqrt_1. apply sqrt_lt_1_alt. lra.
Qed.
(** Two axes or more. *)
Lemma classes_inside : forall d a n m s, finite d = true -> shp a = n :: m :: s ->
  exists f, inside_nd d a = Ok (m :: s, f) /\ forall idx, f idx = true <-> from_origin n (point_at a idx) < 1.
Proof.
  intros d a n m s Hd E. unfold inside_nd. rewrite E. eexists. split; [destruct d; [discriminate Hd| | |]; reflexivity|]. intros idx. cbv beta.
  unfold norm2_nd, from_origin, point_at. rewrite E. cbn [hd].
  set (q := rsum n _). assert (Hq : 0 <= q) by (apply rsum_nonneg; intros; nra).
  destruct (Rltb_spec (sqrt q) 1) as [L|L]; [apply (below_one q Hq) in L; tauto|]. split; [discriminate|]. intros C. apply (below_one q Hq) in C. lra.
Qed.
(** Inside exactly where the kernel is positive, for Parabola and Triweight. *)
Lemma classes_positive : forall d a n m s, d = Parabola \/ d = Triweight -> shp a = n :: m :: s -> (1 <= n)%nat ->
  exists f, inside_nd d a = Ok (m :: s, f) /\ forall idx, f idx = true <-> 0 < at_ (evaluate_nd d a) idx.
Proof.
  intros d a n m s Hd E Hn. assert (Hf : finite d = true) by (destruct Hd as [-> | ->]; reflexivity).
  destruct (classes_inside d a n m s Hf E) as [f [Ef Hi]]. exists f. split; [exact Ef|]. intros idx. rewrite Hi.
  assert (Hc : coords_of a = n) by (unfold coords_of; rewrite E; reflexivity).
  destruct (classes_evaluate d a ltac:(lia)) as (g & [_ (c & Hc0 & Hg)] & _ & Hv). rewrite Hv, Hg, Hc. set (q := from_origin n (point_at a idx)).
  assert (Hq : 0 <= q) by (apply rsum_nonneg; intros; nra).
  destruct Hd as [-> | ->]; cbn [spec_prof]; destruct (Rle_dec q 1) as [L|L]; split; intros H; try lra.
  - apply Rmult_lt_0_compat; lra.
  - destruct (Rlt_le_dec q 1); [assumption|]. assert (q = 1) by lra. subst. rewrite H0 in H. lra.
  - apply Rmult_lt_0_compat; [lra|]. assert (0 < 1 - q) by lra. apply Rmult_lt_0_compat; [apply Rmult_lt_0_compat|]; assumption.
  - destruct (Rlt_le_dec q 1); [assumption|]. assert (q = 1) by lra. rewrite H0 in H. lra.
Qed.
(** On the sphere the Box is positive, but inside says no. *)
Lemma classes_box_refuted : exists a f, shp a = [2%nat; 1%nat] /\ inside_nd Box a = Ok ([1%nat], f) /\ f [0%nat] = false /\ 0 < at_ (evaluate_nd Box a) [0%nat].
Proof.
  set (a := mkA [2%nat; 1%nat] (fun idx => if Nat.eqb (hd 0%nat idx) 0 then 1 else 0)). exists a.
  destruct (classes_inside Box a 2 1 [] eq_refl eq_refl) as [f [Ef Hf]]. exists f. split; [reflexivity|]. split; [exact Ef|].
  assert (E : from_origin 2 (point_at a [0%nat]) = 1) by (unfold from_origin, point_at, a; cbn; ring).
  split.
  - destruct (f [0%nat]) eqn:F; [|reflexivity]. apply Hf in F. rewrite E in F. lra.
  - destruct (classes_evaluate Box a ltac:(cbn; lia)) as (g & [_ (c & Hc & Hg)] & _ & Hv). rewrite Hv, Hg.
    replace (coords_of a) with 2%nat by reflexivity. rewrite E. cbn [spec_prof]. destruct (Rle_dec 1 1); lra.
Qed.
(** A vector of several numbers, accepted by evaluate, is an error; so is everything for the Gaussian. *)
Lemma classes_inside_vector : forall d a n, finite d = true -> shp a = [n] -> 
  ((2 <= n)%nat -> inside_nd d a = Err ValueError)
  /\ (n = 1%nat -> exists f, inside_nd d a = Ok ([1%nat], f) /\ (f [0%nat] = true <-> from_origin 1 (point_at a [0%nat]) < 1)).
Proof.
  intros d a n Hd E. unfold inside_nd. rewrite E. split.
  - intros H. destruct (Nat.ltb_spec 1 n); [|lia]. destruct d; [discriminate Hd| | |]; reflexivity.
  - intros ->. eexists. split; [destruct d; [discriminate Hd| | |]; reflexivity|]. cbv beta. unfold from_origin, point_at. rewrite E. cbn [rsum]. set (x := at_ a [0%nat]).
    destruct (Rltb_spec (-1) x), (Rltb_spec x 1); cbn [andb]; split; intros H; try discriminate H; try reflexivity; nra.
Qed.
Lemma classes_inside_gaussian : forall a, inside_nd Gaussian a = Err TypeError.
Proof. reflexivity. Qed.
Lemma classes_inside_number : forall d a, finite d = true -> shp a = [] -> inside_nd d a = Err ValueError.
Proof. intros d a Hd E. unfold inside_nd. rewrite E. destruct d; [discriminate Hd| | |]; reflexivity. Qed.
(** The kernel on a grid. *)
Lemma classes_grid : forall d edges, edges <> [] ->
  exists a g, grid_nd d edges = Ok a /\ normalised d (length edges) g /\ shp a = map (@List.length R) edges
  /\ forall idx, inb (shp a) idx -> at_ a idx = g (fun k => nth (nth k idx 0%nat) (nth k edges []) 0).
Proof.
  intros d edges Hne. destruct edges as [|e0 es]; [congruence|]. set (edges := e0 :: es) in *. unfold grid_nd, edges at 1.
  exists (reshape_nd (map (@length R) edges) (map (dist_evaluate d (length edges)) (mesh_columns edges))), (dist_evaluate d (length edges)). split; [reflexivity|].
  split; [apply evaluate_normalised; unfold edges; cbn; lia|]. cbn [reshape_nd shp at_]. split; [reflexivity|].
  intros idx Hi. unfold vget. fold (lens edges) in *. rewrite (nth_indep _ 0 (dist_evaluate d (length edges) (fun _ => 0))) by (rewrite map_length, mesh_columns_length; apply ravel_lt, Hi).
  rewrite map_nth, mesh_columns_nth by exact Hi. reflexivity.
Qed.
Lemma classes_grid_empty : forall d, grid_nd d [] = Err ValueError.
Proof. reflexivity. Qed.
(** Shapes of samples: an axis of length one is removed if the number of dimensions is one, or when asked to. *)
Lemma classes_sample : forall d size ndim squeeze rn, let n := match ndim with Some n => n | None => 1%nat end in
  let removed := match squeeze with Some b => b | None => Nat.eqb n 1 end in
  shp (sample_nd d size ndim squeeze rn) = (if removed then squeezed [n; size] [n; size] else [n; size])
  /\ forall i j, (i < n)%nat -> (j < size)%nat ->
       at_ (sample_nd d size ndim squeeze rn) (if removed then squeezed [n; size] [i; j] else [i; j]) = dist_sample d n (rn j) i.
Proof.
  intros d size ndim squeeze rn n removed. unfold sample_nd. fold n. fold removed. unfold squeezed. cbn [combine filter map fst snd].
  destruct removed; cbn [negb]; [|split; [reflexivity|intros; reflexivity]].
  destruct (Nat.eqb_spec n 1) as [-> |], (Nat.eqb_spec size 1) as [-> |]; cbn [negb map snd shp at_]; (split; [reflexivity|]);
    intros i j Hi Hj; try (replace i with 0%nat by lia); try (replace j with 0%nat by lia); reflexivity.
Qed.

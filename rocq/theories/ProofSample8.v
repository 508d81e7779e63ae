(** Concrete samplers: an argsort, and cases in which natural expectations fail. *)
From Coq Require Import ZArith Permutation.
From Verif Require Import Base ModelLinAlg ModelKernels ModelKDE ModelInterp ModelResample ModelUtils ModelNd ModelSample
  SpecUtils SpecNd SpecSample ProofInterp ProofUtils ProofUtils2 ProofUtils4 ProofNested ProofNd ProofNd2 ProofNd3 ProofGrid ProofGrid2 ProofSample ProofSample2 ProofSample3 ProofSample4 ProofSample5 ProofSample6 ProofSample7.
Open Scope R_scope.
Notation length := List.length.

Fixpoint insert_pos (m : list R) (i : nat) (l : list nat) : list nat :=
  match l with [] => [i] | j :: r => if Rleb (nth i m 0) (nth j m 0) then i :: l else j :: insert_pos m i r end.
Definition some_argsort (m : list R) : list nat := fold_right (insert_pos m) [] (seq 0 (length m)).
Lemma insert_pos_vals m i l : map (fun k => nth k m 0) (insert_pos m i l) = insert_val (nth i m 0) (map (fun k => nth k m 0) l).
Proof. induction l as [|j l IH]; [reflexivity|]. cbn [insert_pos map insert_val]. destruct (Rleb (nth i m 0) (nth j m 0)); [reflexivity|]. cbn [map]. rewrite IH. reflexivity. Qed.
Lemma insert_pos_perm m i l : Permutation (insert_pos m i l) (i :: l).
Proof. induction l as [|j l IH]; [reflexivity|]. cbn [insert_pos]. destruct (Rleb (nth i m 0) (nth j m 0)); [reflexivity|]. rewrite IH. apply perm_swap. Qed.
Lemma some_argsort_ok : is_argsort some_argsort.
Proof.
  intros m. unfold some_argsort. generalize (seq 0 (length m)). intros l. split.
  - induction l as [|i l IH]; [reflexivity|]. cbn [fold_right]. rewrite insert_pos_perm, IH. reflexivity.
  - apply chain_nondecr. induction l as [|i l IH]; [exact I|]. cbn [fold_right]. rewrite insert_pos_vals. apply chain_insert, IH.
Qed.

Lemma two_edges a b : a < b -> good_edges [[a; b]].
Proof. intros H. split; [discriminate|]. intros e [<-|[]]. split; [cbn; lia|]. intros i j Hij Hj. cbn in Hj. destruct i as [|[|]], j as [|[|]]; cbn; try lia; lra. Qed.
Lemma three_edges a b c : a < b < c -> good_edges [[a; b; c]].
Proof. intros H. split; [discriminate|]. intros e [<-|[]]. split; [cbn; lia|]. intros i j Hij Hj. cbn in Hj. destruct i as [|[|[|]]], j as [|[|[|]]]; cbn; try lia; lra. Qed.
Lemma vec_nonneg l : (forall x, In x l -> 0 <= x) -> nonneg_nd (vec l).
Proof. intros H idx _. cbn [vec at_]. apply vget_nonneg, H. Qed.
(** A one-dimensional grid with three edges and no given masses. *)
Lemma three_case : exists m, grid_case (EFlat [0; 1; 3]) [[0; 1; 3]] (vec [1; 3; 1]) None None None m /\ shp m = [2%nat] /\ at_ m [0%nat] = 2 /\ at_ m [1%nat] = 4.
Proof.
  assert (Hg : good_edges [[0; 1; 3]]) by (apply three_edges; lra).
  destruct (mass_run (vec [1; 3; 1]) [[0; 1; 3]] eq_refl (good_ne _ Hg)) as (m & E & S & V).
  assert (V0 : at_ m [0%nat] = 2) by (rewrite V by (repeat constructor); unfold avg_corners; cbn; lra).
  assert (V1 : at_ m [1%nat] = 4) by (rewrite V by (repeat constructor); unfold avg_corners; cbn; lra).
  exists m. split; [|split; [exact S|split; assumption]]. split; [right; eexists; split; reflexivity|]. split; [exact Hg|]. split; [reflexivity|].
  split; [apply vec_nonneg; cbn; intros x [<-|[<-|[<-|[]]]]; lra|]. split; [exact E|]. split; [|split; intros ? C; discriminate C].
  intros idx Hi. rewrite S in Hi. cbn in Hi. inversion Hi as [|i n idx' sh' Hlt Hr]; subst. inversion Hr; subst. destruct i as [|[|]]; [rewrite V0; lra|rewrite V1; lra|lia].
Qed.
Lemma three_total m : shp m = [2%nat] -> at_ m [0%nat] = 2 -> at_ m [1%nat] = 4 -> total m = 6.
Proof. intros S H0 H1. unfold total. rewrite S. cbn [asum rsum]. rewrite H0, H1. lra. Qed.

(** C54: the first bin of that grid has the mean 2, all grid values have the mean 5/3. *)
Theorem density_not_followed : exists ord e ys G, is_argsort ord /\ incr_list e /\ length ys = length e /\ (forall y, In y ys -> 0 < y)
  /\ Sample_Grid ord (EFlat e) (vec ys) None None None = Ok G
  /\ ~ (forall rs rand vals sc, unit_draws 1 1 rand -> sg_sample G (Some 1) true rs rand = Ok (vals, sc) -> nth 0 e 0 < column vals 0 0 < nth 1 e 0 ->
        linear_cdf (nth 0 ys 0) (nth 1 ys 0) ((column vals 0 0 - nth 0 e 0) / (nth 1 e 0 - nth 0 e 0)) = rand 1%nat 0%nat).
Proof.
  destruct three_case as (m & Hc & S & V0 & V1).
  destruct (density_followed_iff some_argsort [0; 1; 3] [1; 3; 1] None None None m 0 some_argsort_ok Hc ltac:(rewrite (three_total m S V0 V1); lra) ltac:(cbn; lia) ltac:(lra) ltac:(cbn; lra)) as (G & E & I).
  exists some_argsort, [0; 1; 3], [1; 3; 1], G. split; [apply some_argsort_ok|]. split; [destruct Hc as (_ & [_ Hg] & _); apply Hg; left; reflexivity|]. split; [reflexivity|]. split; [cbn; intros y [<-|[<-|[<-|[]]]]; lra|].
  split; [exact E|]. intros H. destruct I as [I _]. specialize (I H). unfold mean_of in I. cbn in I. lra.
Qed.

(** C77: a constant scalar density of one on a bin of width two. *)
Theorem scalar_not_density : exists ord e ys sd, is_argsort ord /\ incr_list e /\ (forall y, In y sd -> y = 1)
  /\ forall rand, unit_draws 1 1 rand -> exists G vals l, Sample_Grid ord (EFlat e) (vec ys) None (Some (vec sd)) None = Ok G
     /\ sg_sample G (Some 1) true None rand = Ok (vals, Some l) /\ nth 0 l 0 <> 1.
Proof.
  assert (Hg : good_edges [[0; 2]]) by (apply two_edges; lra).
  destruct (mass_run (vec [1; 1]) [[0; 2]] eq_refl (good_ne _ Hg)) as (m & E & S & V).
  assert (V0 : at_ m [0%nat] = 2) by (rewrite V by (repeat constructor); unfold avg_corners; cbn; lra).
  assert (Hz : forall idx, inb [1%nat] idx -> idx = [0%nat]) by (intros idx Hi; inversion Hi as [|i n idx' sh' Hlt Hr]; subst; inversion Hr; subst; assert (i = 0)%nat by lia; subst; reflexivity).
  assert (Hc : grid_case (EFlat [0; 2]) [[0; 2]] (vec [1; 1]) None (Some (vec [1; 1])) None m).
  { split; [right; eexists; split; reflexivity|]. split; [exact Hg|]. split; [reflexivity|]. split; [apply vec_nonneg; cbn; intros x [<-|[<-|[]]]; lra|]. split; [exact E|].
    split; [intros idx Hi; rewrite S in Hi; rewrite (Hz idx Hi), V0; lra|]. split; [intros sd C; injection C as <-; reflexivity|intros sm C; discriminate C]. }
  exists some_argsort, [0; 2], [1; 1], [1; 1]. split; [apply some_argsort_ok|]. split; [destruct Hg as [_ Hg]; apply Hg; left; reflexivity|]. split; [cbn; intros y [<-|[<-|[]]]; reflexivity|].
  intros rand Hr. destruct (scalar_constant some_argsort _ _ _ _ (vec [1; 1]) m 1 (Some 1) true None rand 1 some_argsort_ok Hc) as (G & vals & l & E1 & E2 & L & Hl).
  - unfold total. rewrite S. cbn [asum rsum masses map length Nat.sub]. rewrite V0. lra.
  - unfold wants. cbn. lra.
  - exact Hr.
  - discriminate.
  - intros idx Hi. cbn in Hi. inversion Hi as [|i n idx' sh' Hlt Hrr]; subst. inversion Hrr; subst. cbn [vec at_ nth vget]. unfold vget. cbn [nth]. destruct i as [|[|]]; cbn; try reflexivity; lia.
  - exists G, vals, l. split; [exact E1|]. split; [exact E2|]. destruct (Hl 0%nat ltac:(lia)) as (idx & Hi & _ & _ & Hv). rewrite Hv. cbn in Hi. rewrite (Hz idx Hi). unfold bin_volume. cbn. lra.
Qed.

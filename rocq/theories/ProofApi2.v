(** Proofs about KDE.density without points. *)
From Coq Require Import String Ascii FunctionalExtensionality.
From Verif Require Import Base ModelLinAlg SpecLinAlg ModelKernels SpecKernels ModelKDE ModelReflect ModelInterp ModelResample ModelUtils ModelNd ModelGrid ModelSample ModelApi
  SpecUtils SpecKDE SpecNd SpecGrid SpecApi ProofExamples ProofKDE ProofLinAlg ProofTop2 ProofTop3 ProofResample ProofResample2 ProofNd ProofNd2 ProofGrid ProofGrid3 ProofApi SpecApi2.
Open Scope R_scope.
Notation length := List.length.

Lemma map_nth_seq (g : list (list R)) : map (fun q => nth q g []) (seq 0 (length g)) = g.
Proof.
  induction g as [|x g IH]; [reflexivity|]. cbn [length seq map nth]. f_equal. rewrite <- seq_shift, map_map. exact IH.
Qed.
Lemma selected_resolve K p ps g : selected (kd_ndim K) p ps -> length g = kd_ndim K -> exists ops, resolve_params K p = Ok ops
  /\ (match ops with None => g | Some l => map (fun q => nth q g []) l end) = rows_of g ps.
Proof.
  intros H Hg. unfold resolve_params, rows_of. destruct p as [|q|l]; cbn in H.
  - exists None. split; [reflexivity|]. subst. rewrite <- Hg, map_nth_seq. reflexivity.
  - destruct H as [-> H]. destruct (Nat.eqb_spec (kd_ndim K) 1) as [E|E].
    + replace q with O by lia. exists None. split; [reflexivity|]. rewrite E in Hg. destruct g as [|x [|y g]]; try discriminate. reflexivity.
    + apply Nat.ltb_lt in H. rewrite H. exists (Some [q]). split; reflexivity.
  - destruct H as [-> [H Hn]]. apply Nat.eqb_neq in Hn. rewrite Hn. exists (Some l). split; [|reflexivity].
    replace (forallb (fun q => Nat.ltb q (kd_ndim K)) l) with true; [reflexivity|]. symmetry. apply forallb_forall. intros q Hq. apply Nat.ltb_lt. rewrite Forall_forall in H. exact (H q Hq).
Qed.
Lemma inb_of rows idx : length idx = length rows -> (forall d, (d < length rows)%nat -> (nth d idx 0 < length (nth d rows []))%nat) -> inb (map (@length R) rows) idx.
Proof.
  revert idx. induction rows as [|r rows IH]; intros [|i idx] Hl H; try discriminate; [constructor|]. constructor; [exact (H O ltac:(cbn; lia))|].
  apply IH; [injection Hl as Hl; exact Hl|]. intros d Hd. exact (H (S d) ltac:(cbn; lia)).
Qed.
(** Several parameters: a grid, whatever the option says. *)
Lemma default_grid : forall K (prob : bool) refl p ps (grid : bool) g f, selected (kd_ndim K) p ps -> length g = kd_ndim K -> (2 <= length ps)%nat ->
  kde_density K prob (length ps) refl p = Ok f ->
  exists a, density_values K prob refl p grid None false (Ok g) = Ok (PtRows (rows_of g ps), a) /\ grid_of (rows_of g ps) f a.
Proof.
  intros K prob refl p ps grid g f Hs Hg H2 Hf. destruct (selected_resolve K p ps g Hs Hg) as [ops [Ho Er]].
  assert (El : length (rows_of g ps) = length ps) by apply map_length. rewrite <- El in Hf.
  destruct (density_grid_pointwise K prob refl p (rows_of g ps) f Hf) as (a & E & S & V). exists a. split.
  - unfold density_values. rewrite Ho. cbn [bind]. rewrite Er, El. replace (Nat.ltb 1 (length ps)) with true by (symmetry; apply Nat.ltb_lt; lia). rewrite E. cbn [bind].
    replace (match p with PInt _ => _ | _ => false end) with false; [reflexivity|]. destruct p as [|q|l]; try reflexivity. destruct Hs as [-> _]. cbn in H2. lia.
  - split; [exact S|]. intros idx Hl Hi. apply V. rewrite S. apply inb_of; assumption.
Qed.
(** One parameter, by number: a vector of points and of values. *)
Lemma default_one : forall K (prob : bool) refl q (grid : bool) g f, (q < kd_ndim K)%nat -> length g = kd_ndim K -> kd_ndim K <> 1%nat -> length (nth q g []) <> 1%nat ->
  kde_density K prob 1 refl (PInt q) = Ok f ->
  exists a, density_values K prob refl (PInt q) grid None false (Ok g) = Ok (PtFlat (nth q g []), a)
  /\ vector_of (length (nth q g [])) (fun j => f (fun d => nth j (nth d [nth q g []] []) 0)) a.
Proof.
  intros K prob refl q grid g f Hq Hg Hn Hl Hf. destruct (rows_values_ok K prob refl (PInt q) [nth q g []] (length (nth q g [])) f Hf) as (a & E & V); [discriminate| |].
  { intros r [<-|[]]. reflexivity. }
  exists (squeeze_nd a). split; [|apply squeeze_vector; assumption].
  unfold density_values, resolve_params. apply Nat.eqb_neq in Hn. rewrite Hn. apply Nat.ltb_lt in Hq. rewrite Hq. cbn [bind map length Nat.ltb Nat.leb negb].
  rewrite E. reflexivity.
Qed.
(** ... as a list with one entry: one row of points. *)
Lemma default_list : forall K (prob : bool) refl q (grid : bool) g f, (q < kd_ndim K)%nat -> length g = kd_ndim K -> kd_ndim K <> 1%nat ->
  kde_density K prob 1 refl (PList [q]) = Ok f ->
  exists a, density_values K prob refl (PList [q]) grid None false (Ok g) = Ok (PtRows [nth q g []], a)
  /\ vector_of (length (nth q g [])) (fun j => f (fun d => nth j (nth d [nth q g []] []) 0)) a.
Proof.
  intros K prob refl q grid g f Hq Hg Hn Hf. destruct (rows_values_ok K prob refl (PList [q]) [nth q g []] (length (nth q g [])) f Hf) as (a & E & V); [discriminate| |].
  { intros r [<-|[]]. reflexivity. }
  exists a. split; [|exact V].
  unfold density_values, resolve_params. apply Nat.eqb_neq in Hn. rewrite Hn. apply Nat.ltb_lt in Hq. cbn [forallb]. rewrite Hq. cbn [bind map length Nat.ltb Nat.leb negb andb].
  rewrite E. reflexivity.
Qed.
(** One-dimensional data: the values at these points, as vectors for flat data. *)
Lemma default_flat : forall K (prob flat : bool) refl p (grid : bool) l f, kd_ndim K = 1%nat -> p = PNone \/ p = PInt 0 ->
  kde_density K prob 1 refl p = Ok f ->
  exists a, density_values K prob refl p grid None flat (Ok [l]) = Ok (if flat then PtFlat l else PtRows [l], a)
  /\ vector_of (length l) (fun j => f (fun d => nth j (nth d [l] []) 0)) a.
Proof.
  intros K prob flat refl p grid l f Hn Hp Hf. destruct (rows_values_ok K prob refl p [l] (length l) f Hf) as (a & E & V); [discriminate| |].
  { intros r [<-|[]]. reflexivity. }
  exists a. split; [|exact V]. unfold density_values, resolve_params. rewrite Hn. destruct Hp as [-> | ->]; cbn [bind Nat.eqb map length Nat.ltb Nat.leb negb hd]; rewrite E; destruct flat; reflexivity.
Qed.

(** Proofs about the kernel lookup, the shapes of results, and the functions of kalepy/__init__.py. *)
From Coq Require Import String Ascii FunctionalExtensionality.
From Verif Require Import Base ModelLinAlg SpecLinAlg ModelKernels SpecKernels ModelKDE ModelReflect ModelInterp ModelResample ModelUtils ModelNd ModelGrid ModelSample ModelApi
  SpecUtils SpecKDE SpecNd SpecGrid SpecApi ProofTop2 ProofTop3 ProofResample ProofResample2 ProofNd ProofNd2 ProofGrid ProofGrid3.
Open Scope R_scope.
Notation length := List.length.

(* ------------------------------------------------------------ strings *)
Lemma ascii_code_inj a b : nat_of_ascii a = nat_of_ascii b -> a = b.
Proof. intros H. rewrite <- (ascii_nat_embedding a), <- (ascii_nat_embedding b), H. reflexivity. Qed.
Lemma lower_code c : nat_of_ascii (lower_c c) = nat_of_ascii c
    /\ ~ (65 <= nat_of_ascii c <= 90)%nat
  \/ nat_of_ascii (lower_c c) = (nat_of_ascii c + 32)%nat /\ ((65 <= nat_of_ascii c <= 90)%nat \/ (192 <= nat_of_ascii c <= 222)%nat).
Proof.
  unfold lower_c. pose proof (nat_ascii_bounded c).
  destruct (orb _ _) eqn:E.
  - right. assert (H1 : (65 <= nat_of_ascii c <= 90)%nat \/ (192 <= nat_of_ascii c <= 222)%nat).
    { apply orb_prop in E. destruct E as [E|E]; apply andb_prop in E; destruct E as [E1 E2].
      - left. apply Nat.leb_le in E1, E2. lia.
      - right. apply andb_prop in E1. destruct E1 as [E1 E3]. apply Nat.leb_le in E1, E3. lia. }
    split; [|exact H1]. rewrite nat_ascii_embedding; [reflexivity|lia].
  - left. split; [reflexivity|]. intros [H1 H2]. apply orb_false_iff in E. destruct E as [E _].
    apply andb_false_iff in E. destruct E as [E|E]; apply Nat.leb_gt in E; lia.
Qed.
Lemma space_white c : space_c c = true <-> white c.
Proof.
  unfold space_c, white. set (n := nat_of_ascii c). rewrite !orb_true_iff, !andb_true_iff, !Nat.leb_le, !Nat.eqb_eq. cbn [In]. lia.
Qed.
Lemma lower_space c : white (lower_c c) <-> white c.
Proof.
  unfold white. destruct (lower_code c) as [[E _]|[E H]]; rewrite E; [tauto|]. cbn [In]. lia.
Qed.
Lemma lower_white c : white c -> lower_c c = c.
Proof.
  intros H. apply ascii_code_inj. unfold white in H. destruct (lower_code c) as [[E _]|[E H']]; [exact E|]. cbn [In] in H. lia.
Qed.
Lemma lower_same c d : (97 <= nat_of_ascii d <= 122)%nat -> (lower_c c = d <-> same_letter c d).
Proof.
  intros Hd. unfold same_letter. split.
  - intros E. destruct (lower_code c) as [[E1 _]|[E1 H]].
    + left. apply ascii_code_inj. congruence.
    + rewrite E in E1. right. split; [exact Hd|]. lia.
  - intros [E|[_ E]].
    + subst. apply ascii_code_inj. destruct (lower_code d) as [[E1 _]|[E1 H]]; [exact E1|lia].
    + apply ascii_code_inj. destruct (lower_code c) as [[E1 H]|[E1 H]]; lia.
Qed.

Definition letters (l : list ascii) : Prop := Forall (fun d => (97 <= nat_of_ascii d <= 122)%nat) l.
Lemma lower_all l name : letters name -> (map lower_c l = name <-> Forall2 same_letter l name).
Proof.
  intros Hn. revert l. induction Hn as [|d name Hd Hn IH]; intros l.
  - destruct l; split; intros H; try constructor; inversion H.
  - destruct l as [|c l]; split; intros H; try (now inversion H).
    + cbn in H. injection H as H1 H2. constructor; [apply lower_same; assumption|apply IH, H2].
    + inversion H as [|? ? ? ? H1 H2]; subst. cbn. f_equal; [apply lower_same; assumption|apply IH, H2].
Qed.

Lemma drop_split l : exists pre, l = pre ++ drop_spaces l /\ Forall white pre.
Proof.
  induction l as [|c l [pre [E H]]]; [exists []; split; [reflexivity|constructor]|]. cbn. destruct (space_c c) eqn:S.
  - exists (c :: pre). cbn. rewrite <- E. split; [reflexivity|]. constructor; [apply space_white, S|exact H].
  - exists []. split; [reflexivity|constructor].
Qed.
Lemma drop_app pre l : Forall white pre -> drop_spaces (pre ++ l) = drop_spaces l.
Proof. intros H. induction H as [|c pre Hc H IH]; [reflexivity|]. cbn. apply space_white in Hc. rewrite Hc. exact IH. Qed.
Lemma drop_id c l : ~ white c -> drop_spaces (c :: l) = c :: l.
Proof. intros H. cbn. destruct (space_c c) eqn:S; [apply space_white in S; contradiction|reflexivity]. Qed.
Lemma strip_split l : exists pre post, l = pre ++ strip l ++ post /\ Forall white pre /\ Forall white post.
Proof.
  unfold strip. destruct (drop_split l) as [pre [E H]]. destruct (drop_split (rev (drop_spaces l))) as [post [E2 H2]].
  exists pre, (rev post). split.
  - rewrite <- rev_app_distr, <- E2, rev_involutive. exact E.
  - split; [exact H|]. apply Forall_rev, H2.
Qed.
Lemma strip_word pre mid post : Forall white pre -> Forall white post -> letters mid -> strip (pre ++ mid ++ post) = mid.
Proof.
  intros H1 H2 Hm. unfold strip. rewrite drop_app by exact H1.
  assert (NW : forall c, (97 <= nat_of_ascii c <= 122)%nat -> ~ white c) by (intros c Hc Hw; unfold white in Hw; cbn [In] in Hw; lia).
  destruct mid as [|c mid].
  - cbn. rewrite <- (app_nil_r post), drop_app by exact H2. reflexivity.
  - cbn [app]. assert (Hc : ~ white c) by (apply NW; inversion Hm; assumption).
    rewrite drop_id by exact Hc. change (c :: mid ++ post) with ((c :: mid) ++ post). rewrite rev_app_distr, drop_app by (apply Forall_rev, H2).
    assert (Hr : letters (rev (c :: mid))) by (apply Forall_rev, Hm).
    destruct (rev (c :: mid)) as [|e r] eqn:E.
    + apply (f_equal (@length ascii)) in E. rewrite rev_length in E. discriminate E.
    + rewrite drop_id by (apply NW; inversion Hr; assumption). rewrite <- E. apply rev_involutive.
Qed.

Lemma spells_lower s name : letters (list_ascii_of_string name) -> (lower_strip s = name <-> spells s name).
Proof.
  intros Hn. unfold lower_strip, spells. split.
  - intros E. apply (f_equal list_ascii_of_string) in E. rewrite list_ascii_of_string_of_list_ascii in E.
    destruct (strip_split (map lower_c (list_ascii_of_string s))) as (pre & post & E1 & H1 & H2).
    rewrite E in E1. apply map_eq_app in E1. destruct E1 as (a & b & Es & Ea & Eb).
    apply map_eq_app in Eb. destruct Eb as (m & c & Eb & Em & Ec).
    exists a, m, c. split; [rewrite Es, Eb; reflexivity|]. subst pre post.
    split; [|split].
    + apply Forall_forall. intros x Hx. apply lower_space. rewrite Forall_forall in H1. apply H1, in_map, Hx.
    + apply Forall_forall. intros x Hx. apply lower_space. rewrite Forall_forall in H2. apply H2, in_map, Hx.
    + apply lower_all; assumption.
  - intros (a & m & c & Es & Ha & Hc & Hm). rewrite Es, !map_app.
    apply lower_all in Hm; [|exact Hn]. rewrite Hm, strip_word.
    + apply string_of_list_ascii_of_string.
    + apply Forall_forall. intros x Hx. apply in_map_iff in Hx. destruct Hx as (y & <- & Hy). rewrite Forall_forall in Ha. apply lower_space, Ha, Hy.
    + apply Forall_forall. intros x Hx. apply in_map_iff in Hx. destruct Hx as (y & <- & Hy). rewrite Forall_forall in Hc. apply lower_space, Hc, Hy.
    + exact Hn.
Qed.

Lemma letters_of name d : kernel_name name d -> letters (list_ascii_of_string name).
Proof. intros H. unfold letters. destruct H; cbn; repeat constructor; vm_compute; lia. Qed.
Lemma dlookup_name t s d : dlookup t s = Some d -> In (s, d) t.
Proof.
  induction t as [|[k e] t IH]; cbn; [discriminate|]. destruct (String.eqb k s) eqn:E.
  - intros H. injection H as ->. apply String.eqb_eq in E. subst. left. reflexivity.
  - intros H. right. apply IH, H.
Qed.
Lemma table_name s d : dlookup DISTRIBUTIONS s = Some d <-> kernel_name s d.
Proof.
  split.
  - intros H. apply dlookup_name in H. cbn in H. decompose [or] H; try contradiction; match goal with E : (_, _) = (_, _) |- _ => injection E as <- <- end; constructor.
  - intros H. destruct H; reflexivity.
Qed.

Lemma kernel_names : forall s d, get_distribution_class (KaStr s) = Ok (DKnown d) <-> exists name, kernel_name name d /\ spells s name.
Proof.
  intros s d. cbn [get_distribution_class]. split.
  - destruct (dlookup DISTRIBUTIONS (lower_strip s)) as [d'|] eqn:E; [|discriminate]. intros H. injection H as ->. apply table_name in E. exists (lower_strip s). split; [exact E|].
    apply spells_lower; [|reflexivity]. eapply letters_of, E.
  - intros (name & Hk & Hs). apply spells_lower in Hs; [|eapply letters_of, Hk]. rewrite Hs. apply table_name in Hk. rewrite Hk. reflexivity.
Qed.
Lemma kernel_unknown : forall s, (forall name d, kernel_name name d -> ~ spells s name) -> get_distribution_class (KaStr s) = Err ValueError.
Proof.
  intros s H. cbn [get_distribution_class]. destruct (dlookup DISTRIBUTIONS (lower_strip s)) as [d'|] eqn:E; [|reflexivity]. apply table_name in E. exfalso.
  apply (H _ _ E). apply spells_lower; [|reflexivity]. eapply letters_of, E.
Qed.
Lemma kernel_other : get_distribution_class KaNone = Ok (DKnown Gaussian) /\ (forall c, get_distribution_class (KaClass c) = Ok c)
  /\ get_distribution_class KaOther = Err ValueError.
Proof. repeat split. Qed.
Lemma kernel_name_total : forall a, (exists c, get_distribution_class a = Ok c) \/ get_distribution_class a = Err ValueError.
Proof. intros [|c|s|]; cbn [get_distribution_class]; eauto. destruct (dlookup DISTRIBUTIONS (lower_strip s)); eauto. Qed.

(* ------------------------------------------------------------ shapes *)
Lemma rows_values_ok K (prob : bool) refl p rows m f : kde_density K prob (length rows) refl p = Ok f -> rows <> [] -> (forall r, In r rows -> length r = m) ->
  exists a, rows_values K prob refl p rows = Ok a /\ vector_of m (fun j => f (fun d => nth j (nth d rows []) 0)) a.
Proof.
  intros Hf Hne Hm. unfold rows_values.
  assert (Eh : length (hd [] rows) = m) by (destruct rows as [|r rows]; [contradiction|]; apply Hm; left; reflexivity).
  rewrite Eh. replace (forallb _ rows) with true.
  2:{ symmetry. apply forallb_forall. intros r Hr. apply Nat.eqb_eq. apply Hm, Hr. }
  rewrite Hf. cbn [bind]. eexists. split; [reflexivity|]. unfold columns. rewrite Eh. split; cbn [shp at_].
  - rewrite !map_length, seq_length. reflexivity.
  - intros j Hj. cbn [nth]. unfold vget. rewrite map_map.
    rewrite (nth_indep _ 0 (f (fun d => nth 0 (nth d rows []) 0))) by (rewrite map_length, seq_length; exact Hj).
    rewrite (map_nth (fun j => f (fun d => nth j (nth d rows []) 0)) (seq 0 m) 0%nat j), seq_nth by exact Hj. reflexivity.
Qed.

Lemma grid_vector K (prob : bool) refl p l f : kde_density K prob 1 refl p = Ok f ->
  exists a, density_grid K prob refl p [l] = Ok a /\ vector_of (length l) (fun j => f (fun d => nth j (nth d [l] []) 0)) a.
Proof.
  intros Hf. destruct (density_grid_pointwise K prob refl p [l] f Hf) as (a & E & S & V). exists a. split; [exact E|]. split; [exact S|].
  intros j Hj. rewrite V.
  - f_equal. apply functional_extensionality. intros d. destruct d as [|[|d]]; cbn; [reflexivity| |]; destruct j; reflexivity.
  - rewrite S. cbn. constructor; [exact Hj|constructor].
Qed.

Lemma squeeze_vector m v a : vector_of m v a -> m <> 1%nat -> vector_of m v (squeeze_nd a).
Proof.
  intros [S V] Hm. unfold squeeze_nd. split; cbn [shp at_]; rewrite S; cbn [filter].
  - apply Nat.eqb_neq in Hm. rewrite Hm. reflexivity.
  - intros j Hj. cbn [unsqueeze]. apply Nat.eqb_neq in Hm. rewrite Hm. apply V, Hj.
Qed.
Lemma squeeze_single v a : vector_of 1 v a -> single_value (v 0%nat) (squeeze_nd a).
Proof.
  intros [S V]. unfold squeeze_nd. split; cbn [shp at_]; rewrite S; cbn [filter Nat.eqb negb unsqueeze]; [reflexivity|]. apply V. lia.
Qed.

Lemma resolve_of K (prob : bool) pdim refl p f : kde_density K prob pdim refl p = Ok f -> exists ops, resolve_params K p = Ok ops.
Proof. unfold kde_density. destruct (resolve_params K p); [eauto|discriminate]. Qed.

(** A flat sequence of points. *)
Lemma flat_points : forall K (prob grid : bool) refl p l f fd auto, kde_density K prob 1 refl p = Ok f ->
  exists a, density_values K prob refl p grid (Some (PtFlat l)) fd auto = Ok (PtFlat l, a)
  /\ (length l <> 1%nat -> vector_of (length l) (fun j => f (fun d => nth j (nth d [l] []) 0)) a)
  /\ (length l = 1%nat -> single_value (f (fun d => nth 0 (nth d [l] []) 0)) a).
Proof.
  intros K prob grid refl p l f fd auto Hf. destruct (resolve_of _ _ _ _ _ _ Hf) as [ops Ho].
  assert (H : exists a, (if grid then density_grid K prob refl p [l] else rows_values K prob refl p [l]) = Ok a
    /\ vector_of (length l) (fun j => f (fun d => nth j (nth d [l] []) 0)) a).
  { destruct grid; [apply grid_vector, Hf|]. apply rows_values_ok; [exact Hf|discriminate|]. intros r [<-|[]]. reflexivity. }
  destruct H as (a & E & V). exists (squeeze_nd a). split; [|split].
  - unfold density_values. rewrite Ho. cbn [bind]. rewrite E. cbn [bind first_points]. reflexivity.
  - intros Hm. apply squeeze_vector; assumption.
  - intros Hm. rewrite Hm in V. apply (squeeze_single _ _ V).
Qed.

(** Rows: kept unless one dimension is selected by a number. *)
Lemma row_points : forall K (prob : bool) refl p rows m f fd auto, kde_density K prob (length rows) refl p = Ok f -> rows <> [] -> (forall r, In r rows -> length r = m) ->
  (kd_ndim K = 1%nat \/ forall q, p <> PInt q) ->
  exists a, density_values K prob refl p false (Some (PtRows rows)) fd auto = Ok (PtRows rows, a)
  /\ vector_of m (fun j => f (fun d => nth j (nth d rows []) 0)) a.
Proof.
  intros K prob refl p rows m f fd auto Hf Hne Hm Hp. destruct (resolve_of _ _ _ _ _ _ Hf) as [ops Ho].
  destruct (rows_values_ok K prob refl p rows m f Hf Hne Hm) as (a & E & V). exists a. split; [|exact V].
  unfold density_values. rewrite Ho. cbn [bind]. rewrite E. cbn [bind].
  replace (match p with PInt _ => negb (kd_ndim K =? 1) | _ => false end) with false; [reflexivity|].
  destruct p as [|q|ps]; try reflexivity. destruct Hp as [->|Hp]; [reflexivity|]. exfalso. exact (Hp q eq_refl).
Qed.
(** ... by a number: as for a flat sequence. *)
Lemma param_points : forall K (prob : bool) refl q l f fd auto, kde_density K prob 1 refl (PInt q) = Ok f -> kd_ndim K <> 1%nat ->
  exists a, density_values K prob refl (PInt q) false (Some (PtRows [l])) fd auto = Ok (PtFlat l, a)
  /\ (length l <> 1%nat -> vector_of (length l) (fun j => f (fun d => nth j (nth d [l] []) 0)) a)
  /\ (length l = 1%nat -> single_value (f (fun d => nth 0 (nth d [l] []) 0)) a).
Proof.
  intros K prob refl q l f fd auto Hf Hn. destruct (resolve_of _ _ _ _ _ _ Hf) as [ops Ho].
  destruct (rows_values_ok K prob refl (PInt q) [l] (length l) f Hf) as (a & E & V); [discriminate| |].
  { intros r [<-|[]]. reflexivity. }
  exists (squeeze_nd a). split; [|split].
  - unfold density_values. rewrite Ho. cbn [bind]. rewrite E. cbn [bind first_points]. apply Nat.eqb_neq in Hn. rewrite Hn. reflexivity.
  - intros Hm. apply squeeze_vector; assumption.
  - intros Hm. rewrite Hm in V. apply (squeeze_single _ _ V).
Qed.
(** A number as point of one-dimensional data: an array with one element. *)
Lemma number_point : forall K (prob : bool) refl r f fd auto, kde_density K prob 1 refl PNone = Ok f ->
  exists a, density_values K prob refl PNone false (Some (PtScalar r)) fd auto = Ok (PtScalar r, a)
  /\ vector_of 1 (fun _ => f (fun d => nth 0 (nth d [[r]] []) 0)) a.
Proof.
  intros K prob refl r f fd auto Hf.
  destruct (rows_values_ok K prob refl PNone [[r]] 1 f Hf) as (a & E & V); [discriminate| |].
  { intros x [<-|[]]. reflexivity. }
  exists a. split.
  - unfold density_values. cbn [resolve_params bind]. rewrite E. reflexivity.
  - destruct V as [S V]. split; [exact S|]. intros j Hj. rewrite V by exact Hj. assert (j = 0)%nat by lia. subst. reflexivity.
Qed.

(** Flat points for data of more dimensions. *)
Lemma flat_points_rejected : forall n data ws d M st K (prob grid : bool) refl l fd auto, built_kde n data ws d M st K -> n <> 1%nat ->
  density_values K prob refl PNone grid (Some (PtFlat l)) fd auto = Err ValueError.
Proof.
  intros n data ws d M st K prob grid refl l fd auto HB Hn.
  destruct (built_inv _ _ _ _ _ _ _ HB) as (En & Ed & Hne & Er & Ew & Hl & Hnn & Hp & Et & Ek & Hs & Hpd).
  assert (HE : kde_density K prob 1 refl PNone = Err ValueError).
  { unfold kde_density. cbn [resolve_params bind]. destruct (match _ with Some r => negb _ | None => false end); [reflexivity|].
    rewrite Ek, En. cbn [kernel_density bind fst snd k_ndim k_matrix]. replace (Nat.eqb 1 n) with false; [reflexivity|].
    symmetry. apply Nat.eqb_neq. congruence. }
  unfold density_values. cbn [resolve_params bind]. destruct grid.
  - rewrite (density_grid_error K prob refl PNone [l] ValueError HE). reflexivity.
  - unfold rows_values. cbn [hd forallb]. rewrite Nat.eqb_refl. cbn [andb]. change (length [l]) with 1%nat. rewrite HE. reflexivity.
Qed.
(** Rows of different lengths. *)
Lemma jagged_points_rejected : forall K (prob : bool) refl rows fd auto r1 r2, In r1 rows -> In r2 rows -> length r1 <> length r2 ->
  density_values K prob refl PNone false (Some (PtRows rows)) fd auto = Err ValueError.
Proof.
  intros K prob refl rows fd auto r1 r2 H1 H2 Hr. unfold density_values. cbn [resolve_params bind]. unfold rows_values.
  destruct (forallb _ rows) eqn:E; [|reflexivity]. exfalso. rewrite forallb_forall in E. apply Hr.
  pose proof (E _ H1) as E1. pose proof (E _ H2) as E2. apply Nat.eqb_eq in E1, E2. congruence.
Qed.

(* ------------------------------------------------------------ resample *)
Lemma resample_clear_length d n M data w keep size rn ix ss : resample_clear d n M data w keep size rn ix = Ok ss -> length ss = size.
Proof.
  unfold resample_clear, add_cov. destruct (chol _ _) as [U|]; cbn [bind]; [|discriminate].
  destruct (negb _); [discriminate|]. destruct (negb _); [discriminate|]. intros H. injection H as <-.
  rewrite map_length, combine_length, !map_length, !seq_length. lia.
Qed.
Lemma kernel_resample_length ok n data w size keep chunk arg rn ix ss : snd (kernel_resample ok n data w size keep chunk arg rn ix) = Ok ss ->
  length ss = size_of data size.
Proof.
  unfold kernel_resample. cbn [snd]. destruct (snd (check_reflect n data arg)) as [spec|e]; cbn [bind]; [|discriminate].
  destruct ok as [k|]; [|discriminate]. destruct spec as [refl|].
  - unfold resample_reflect. destruct (cov_keep_vars _ _ _ _); cbn [bind]; [|discriminate]. destruct (Nat.eqb _ 0); [discriminate|].
    destruct (andb _ _); [discriminate|].
    destruct (reject_loop _ _ _ _ _ _ _ _ _ _) as [[cnt acc]|e] eqn:E; cbn [bind]; [|discriminate]. cbn [snd]. fold (size_of data size) in *.
    destruct (Nat.ltb _ _) eqn:L; cbn [bind]; [discriminate|]. intros H. injection H as <-. apply Nat.ltb_ge in L.
    match type of E with reject_loop ?tr _ _ _ _ _ _ _ _ _ = _ => set (trial := tr) in * end.
    assert (B : forall fuel cnt draw acc cnt' acc', (length acc <= size_of data size)%nat ->
      reject_loop trial refl n (size_of data size) chunk (snd (chunking (size_of data size) chunk)) fuel cnt draw acc = Ok (cnt', acc') -> (length acc' <= size_of data size)%nat).
    { induction fuel as [|fuel IH]; intros c0 d0 a0 c1 a1 Hl H; cbn [reject_loop] in H.
      - injection H as <- <-. exact Hl.
      - destruct (Nat.ltb (length a0) (size_of data size)).
        + destruct (trial c0 d0) as [tr|e]; cbn [bind] in H; [|discriminate]. eapply IH; [|exact H]. rewrite app_length, firstn_length. lia.
        + injection H as <- <-. exact Hl. }
    apply B in E; [|cbn; lia]. cbn [snd]. lia.
  - intros H. apply resample_clear_length in H. exact H.
Qed.
Lemma kde_resample_length K size keep chunk arg rn ix ss : snd (kde_resample K size keep chunk arg rn ix) = Ok ss -> length ss = size_of (kd_data K) size.
Proof. unfold kde_resample. destruct arg; cbn [snd]; apply kernel_resample_length. Qed.

(** The array has one column per sample, [(D, L)]; one-dimensional samples are a vector, a single one a bare value. *)
Lemma resample_shape : forall K size keep chunk arg (squeeze : bool) rn ix ss, snd (kde_resample K size keep chunk arg rn ix) = Ok ss ->
  exists a, snd (resample_values K size keep chunk arg squeeze rn ix) = Ok a
  /\ (kd_ndim K <> 1%nat \/ squeeze = false -> shp a = [kd_ndim K; size_of (kd_data K) size]
      /\ forall i j, at_ a [i; j] = nth j ss pt0 i)
  /\ (kd_ndim K = 1%nat -> squeeze = true -> size_of (kd_data K) size <> 1%nat -> vector_of (size_of (kd_data K) size) (fun j => nth j ss pt0 0%nat) a)
  /\ (kd_ndim K = 1%nat -> squeeze = true -> size_of (kd_data K) size = 1%nat -> single_value (nth 0 ss pt0 0%nat) a).
Proof.
  intros K size keep chunk arg squeeze rn ix ss H. unfold resample_values. cbn [snd]. rewrite H. cbn [bind]. eexists. split; [reflexivity|].
  apply kde_resample_length in H. unfold sample_array. rewrite H. set (L := size_of (kd_data K) size). split; [|split].
  - intros [Hn|Hs].
    + apply Nat.eqb_neq in Hn. rewrite Hn. cbn [andb shp at_]. split; reflexivity.
    + rewrite Hs, andb_false_r. cbn [shp at_]. split; reflexivity.
  - intros -> -> HL. cbn [andb Nat.eqb]. apply Nat.eqb_neq in HL. unfold squeeze_nd. split; cbn [shp at_ filter Nat.eqb negb unsqueeze]; rewrite HL; reflexivity.
  - intros -> -> HL. rewrite HL. cbn [andb Nat.eqb]. unfold squeeze_nd. split; reflexivity.
Qed.

(* ------------------------------------------------------------ kalepy/__init__.py *)
Lemma kde_new_dist n data w b diag resc d d' cova neffa refl K : snd (kde_new n data w b diag resc d cova neffa refl) = Ok K ->
  exists K', snd (kde_new n data w b diag resc d' cova neffa refl) = Ok K'.
Proof.
  unfold kde_new. cbn [snd]. destruct (snd (check_reflect n data refl)) as [spec|]; cbn [bind]; [|discriminate]. unfold kde_init.
  destruct (Nat.eqb _ 0); [discriminate|]. destruct (check_weights _ _); cbn [bind]; [|discriminate]. destruct (set_bandwidth _ _ _ _ _); cbn [bind]; [|discriminate].
  eauto.
Qed.
Lemma kde_new_dist_err n data w b diag resc d d' cova neffa refl e : snd (kde_new n data w b diag resc d cova neffa refl) = Err e ->
  snd (kde_new n data w b diag resc d' cova neffa refl) = Err e.
Proof.
  unfold kde_new. cbn [snd]. destruct (snd (check_reflect n data refl)) as [spec|]; cbn [bind]; [|tauto]. unfold kde_init.
  destruct (Nat.eqb _ 0); [tauto|]. destruct (check_weights _ _); cbn [bind]; [|tauto]. destruct (set_bandwidth _ _ _ _ _); cbn [bind]; [|tauto].
  discriminate.
Qed.

Lemma chunk_only l : forallb (String.eqb "chunk") l = true <-> forall s, In s l -> s = "chunk"%string.
Proof.
  rewrite forallb_forall. split; intros H s Hs.
  - symmetry. apply String.eqb_eq, H, Hs.
  - rewrite (H s Hs). apply String.eqb_refl.
Qed.

Lemma kde_call_known : forall n data w refl kw d, get_distribution_class (kw_kernel kw) = Ok (DKnown d) -> (forall s, In s (kw_extra kw) -> s = "chunk"%string) ->
  snd (kde_call n data w refl kw) = snd (kde_new n data w (kw_bw kw) (kw_diag kw) (kw_rescale kw) d (kw_cov kw) (kw_neff kw) refl).
Proof.
  intros n data w refl kw d Hd Hx. unfold kde_call. cbn [snd].
  destruct (snd (kde_new n data w (kw_bw kw) (kw_diag kw) (kw_rescale kw) Gaussian (kw_cov kw) (kw_neff kw) refl)) as [K|e] eqn:E; cbn [bind].
  - rewrite Hd. cbn [bind]. apply chunk_only in Hx. rewrite Hx. reflexivity.
  - symmetry. eapply kde_new_dist_err, E.
Qed.
Lemma kde_call_unknown : forall n data w refl kw s, In s (kw_extra kw) -> s <> "chunk"%string ->
  exists e, snd (kde_call n data w refl kw) = Err e.
Proof.
  intros n data w refl kw s Hs Hc. unfold kde_call. cbn [snd].
  destruct (snd (kde_new _ _ _ _ _ _ _ _ _ _)) as [K|e]; cbn [bind]; [|eauto]. destruct (get_distribution_class _); cbn [bind]; [|eauto].
  replace (forallb (String.eqb "chunk") (kw_extra kw)) with false; [eauto|]. symmetry. apply not_true_is_false. rewrite chunk_only. intros H. apply Hc, H, Hs.
Qed.

Lemma pdf_never : forall n data pts w refl params grid kw fd auto, exists e, api_pdf n data pts w refl params grid kw fd auto = Err e.
Proof.
  intros n data pts w refl params grid kw fd auto. unfold api_pdf. destruct (existsb (String.eqb "probability") _); [eauto|]. unfold api_density.
  destruct (existsb _ _); [eauto|]. destruct (kde_call_unknown n data w refl (add_name "params" kw) "params") as [e E].
  - left. reflexivity.
  - discriminate.
  - rewrite E. cbn [bind]. eauto.
Qed.
Lemma pdf_typeerror : forall n data pts w refl params grid kw fd auto K, snd (kde_call n data w refl kw) = Ok K ->
  api_pdf n data pts w refl params grid kw fd auto = Err TypeError.
Proof.
  intros n data pts w refl params grid kw fd auto K HK. unfold api_pdf. destruct (existsb (String.eqb "probability") _); [reflexivity|]. unfold api_density.
  destruct (existsb (String.eqb "dataset") _); [reflexivity|]. unfold kde_call in HK |- *. cbn [snd] in HK |- *. unfold add_name at 1. cbn [kw_bw kw_kernel kw_cov kw_neff kw_diag kw_rescale].
  cbn [add_name kw_bw kw_kernel kw_cov kw_neff kw_diag kw_rescale kw_extra].
  destruct (snd (kde_new _ _ _ _ _ _ _ _ _ _)) as [K'|e]; cbn [bind] in HK |- *; [|discriminate].
  destruct (get_distribution_class _); cbn [bind] in HK |- *; [|discriminate]. reflexivity.
Qed.
Lemma pdf_errors : forall n data pts w refl params grid kw fd auto e, ~ In "probability"%string (kw_extra kw) -> ~ In "dataset"%string (kw_extra kw) ->
  (forall s, In s (kw_extra kw) -> s = "chunk"%string) ->
  snd (kde_call n data w refl kw) = Err e -> e <> NotImplementedError -> api_pdf n data pts w refl params grid kw fd auto = Err e.
Proof.
  intros n data pts w refl params grid kw fd auto e Hp Hd Hx HK He. unfold api_pdf, api_density.
  replace (existsb (String.eqb "probability") (kw_extra kw)) with false.
  2:{ symmetry. apply not_true_is_false. intros H. apply existsb_exists in H. destruct H as (s & Hs & E). apply String.eqb_eq in E. subst. contradiction. }
  replace (existsb (String.eqb "dataset") (kw_extra (add_name "params" kw))) with false.
  2:{ symmetry. apply not_true_is_false. intros H. apply existsb_exists in H. destruct H as (s & Hs & E). apply String.eqb_eq in E. subst. destruct Hs as [Hs|Hs]; [discriminate|contradiction]. }
  unfold kde_call in HK |- *. cbn [snd] in HK |- *. cbn [add_name kw_bw kw_kernel kw_cov kw_neff kw_diag kw_rescale kw_extra].
  apply chunk_only in Hx. rewrite Hx in HK.
  destruct (snd (kde_new n data w (kw_bw kw) (kw_diag kw) (kw_rescale kw) Gaussian _ _ _)) as [K'|e'] eqn:E0; cbn [bind] in HK |- *; [|congruence].
  destruct (get_distribution_class _) as [c|e'] eqn:E; cbn [bind] in HK |- *; [|congruence].
  destruct c as [d|u]; [|congruence]. exfalso. destruct (kde_new_dist _ _ _ _ _ _ _ d _ _ _ _ E0) as [K2 E2]. congruence.
Qed.
Lemma density_is_kde : forall n data pts w refl (prob grid : bool) kw fd auto d K, get_distribution_class (kw_kernel kw) = Ok (DKnown d) ->
  (forall s, In s (kw_extra kw) -> s = "chunk"%string) ->
  snd (kde_new n data w (kw_bw kw) (kw_diag kw) (kw_rescale kw) d (kw_cov kw) (kw_neff kw) refl) = Ok K ->
  api_density n data pts w refl prob grid kw fd auto = density_values K prob None PNone grid pts fd (auto K).
Proof.
  intros n data pts w refl prob grid kw fd auto d K Hd Hx HK. unfold api_density.
  replace (existsb (String.eqb "dataset") (kw_extra kw)) with false.
  2:{ symmetry. apply not_true_is_false. intros H. apply existsb_exists in H. destruct H as (s & Hs & E). apply String.eqb_eq in E. apply Hx in Hs. subst. discriminate. }
  rewrite (kde_call_known n data w refl kw d Hd Hx), HK. reflexivity.
Qed.
Lemma resample_is_kde : forall n data size w refl keep kw chunk rn ix d K, get_distribution_class (kw_kernel kw) = Ok (DKnown d) ->
  (forall s, In s (kw_extra kw) -> s = "chunk"%string) ->
  snd (kde_new n data w (kw_bw kw) (kw_diag kw) (kw_rescale kw) d (kw_cov kw) (kw_neff kw) refl) = Ok K ->
  api_resample n data size w refl keep kw chunk rn ix = snd (resample_values K size keep chunk RNone true rn ix).
Proof.
  intros n data size w refl keep kw chunk rn ix d K Hd Hx HK. unfold api_resample.
  replace (existsb (String.eqb "dataset") (kw_extra kw)) with false.
  2:{ symmetry. apply not_true_is_false. intros H. apply existsb_exists in H. destruct H as (s & Hs & E). apply String.eqb_eq in E. apply Hx in Hs. subst. discriminate. }
  rewrite (kde_call_known n data w refl kw d Hd Hx), HK. reflexivity.
Qed.
Lemma density_unknown_keyword : forall n data pts w refl (prob grid : bool) kw fd auto s, In s (kw_extra kw) -> s <> "chunk"%string ->
  exists e, api_density n data pts w refl prob grid kw fd auto = Err e.
Proof.
  intros n data pts w refl prob grid kw fd auto s Hs Hc. unfold api_density. destruct (existsb _ _); [eauto|].
  destruct (kde_call_unknown n data w refl kw s Hs Hc) as [e E]. rewrite E. cbn [bind]. eauto.
Qed.
Lemma kde_call_unknown_type n data w refl kw s K : In s (kw_extra kw) -> s <> "chunk"%string -> snd (kde_call n data w refl (known_only kw)) = Ok K ->
  snd (kde_call n data w refl kw) = Err TypeError.
Proof.
  intros Hs Hc HK. unfold kde_call in HK |- *. cbn [snd] in HK |- *. cbn [known_only kw_bw kw_kernel kw_cov kw_neff kw_diag kw_rescale kw_extra forallb] in HK.
  destruct (snd (kde_new n data w (kw_bw kw) (kw_diag kw) (kw_rescale kw) Gaussian _ _ _)) as [K'|e]; cbn [bind] in HK |- *; [|discriminate].
  destruct (get_distribution_class _); cbn [bind] in HK |- *; [|discriminate].
  replace (forallb (String.eqb "chunk") (kw_extra kw)) with false; [reflexivity|]. symmetry. apply not_true_is_false. rewrite chunk_only. intros H. apply Hc, H, Hs.
Qed.
Lemma unknown_keyword : forall n data pts w refl (prob grid : bool) kw fd auto size keep chunk rn ix s K, In s (kw_extra kw) -> s <> "chunk"%string ->
  snd (kde_call n data w refl (known_only kw)) = Ok K ->
  api_density n data pts w refl prob grid kw fd auto = Err TypeError /\ api_resample n data size w refl keep kw chunk rn ix = Err TypeError.
Proof.
  intros n data pts w refl prob grid kw fd auto size keep chunk rn ix s K Hs Hc HK. unfold api_density, api_resample.
  destruct (existsb _ _); [split; reflexivity|]. rewrite (kde_call_unknown_type _ _ _ _ _ _ _ Hs Hc HK). split; reflexivity.
Qed.

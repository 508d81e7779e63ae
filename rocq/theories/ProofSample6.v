(** Theorems about sample_grid, sample_grid_proportional and sample_outliers. *)
From Coq Require Import ZArith Permutation.
From Verif Require Import Base ModelLinAlg ModelKernels ModelKDE ModelInterp ModelResample ModelUtils ModelNd ModelSample
  SpecUtils SpecNd SpecSample ProofInterp ProofUtils ProofUtils2 ProofUtils4 ProofNested ProofNd ProofNd2 ProofNd3 ProofGrid ProofGrid2 ProofSample ProofSample2 ProofSample3 ProofSample4 ProofSample5.
Open Scope R_scope.
Notation length := List.length.

(* ------------------------------------------------------------ C55 *)
Theorem scalar_squeeze_fails ord ea edges dens mass sd smass m nsamp squeeze interp rs rand n :
  is_argsort ord -> grid_case ea edges dens mass (Some sd) smass m -> 0 < total m -> wants nsamp m n -> unit_draws (length edges) n rand -> rs <> Some false ->
  sample_grid ord ea dens nsamp mass (Some sd) smass squeeze interp rs rand = Err AttributeError
  <-> squeeze = Some true \/ squeeze = None /\ length edges = 1%nat.
Proof.
  intros Ho Hcase HT Hn Hr Hrs. destruct (sampler_spec ord ea edges dens mass (Some sd) smass m Ho Hcase HT) as (G & E & E1 & E2 & E3 & E4 & E5 & E6 & E7 & HR).
  destruct (HR nsamp interp rs rand n Hn Hr) as (vals & sc & bin & R1 & R2 & R3 & R4 & _). destruct (E6 sd eq_refl) as (sm & Em & _). destruct (R4 sd sm eq_refl Em Hrs) as (l & -> & _).
  unfold sample_grid. rewrite E. cbn [bind]. rewrite R1. cbn [bind snd fst].
  destruct Hcase as (_ & _ & Hs & _). rewrite Hs, map_length. destruct squeeze as [[|]|].
  - split; [intros _; left; reflexivity|intros _; reflexivity].
  - split; [intros C; discriminate C|intros [C|[C _]]; discriminate C].
  - destruct (Nat.eqb_spec (length edges) 1) as [L|L]; [split; [intros _; right; split; [reflexivity|exact L]|intros _; reflexivity]|].
    split; [intros C; discriminate C|intros [C|[_ C]]; [discriminate C|contradiction]].
Qed.
(** Without scalars a one-dimensional call returns the samples as a vector, a single one as a number. *)
Theorem sample_grid_1d ord ea e dens mass m nsamp interp rand n :
  is_argsort ord -> grid_case ea [e] dens mass None None m -> 0 < total m -> wants nsamp m n -> unit_draws 1 n rand ->
  exists r, sample_grid ord ea dens nsamp mass None None None interp None rand = Ok (r, None)
  /\ shp r = (if Nat.eqb n 1 then [] else [n])
  /\ forall j, (j < n)%nat -> nth 0 e 0 <= at_ r (if Nat.eqb n 1 then [] else [j]) <= nth (length e - 1) e 0.
Proof.
  intros Ho Hcase HT Hn Hr. destruct (samples_in_bins ord ea [e] dens mass None None m nsamp interp None rand n Ho Hcase HT Hn Hr) as (G & vals & sc & E & R1 & Sv & Hin).
  destruct (sampler_spec ord ea [e] dens mass None None m Ho Hcase HT) as (G' & E' & _ & _ & _ & _ & _ & _ & _ & HR). rewrite E in E'. injection E' as <-.
  destruct (HR nsamp interp None rand n Hn Hr) as (vals' & sc' & bin & R1' & _ & _ & _ & R5). rewrite R1 in R1'. injection R1' as <- <-. specialize (R5 (or_introl eq_refl)). subst sc.
  destruct Hcase as (_ & Hg & Hs & _). unfold sample_grid. rewrite E. cbn [bind]. rewrite R1. cbn [bind snd fst]. rewrite Hs. cbn [map length Nat.eqb]. eexists. split; [reflexivity|].
  unfold squeeze_nd. cbn [shp at_]. rewrite Sv. cbn [filter length Nat.eqb negb]. destruct (Nat.eqb_spec n 1) as [N|N]; cbn [filter negb].
  - split; [reflexivity|]. intros j Hj. cbn [unsqueeze Nat.eqb]. destruct (Nat.eqb_spec n 1) as [_|C]; [|contradiction]. cbn [unsqueeze].
    assert (j = 0)%nat by lia. subst j. destruct (Hin 0%nat Hj) as (idx & Hi & Hb & _). specialize (Hb 0%nat ltac:(cbn; lia)). destruct (bin_edge _ _ 0 Hg Hi ltac:(cbn; lia)) as [Le Lt]. cbn [nth] in *. unfold column in Hb.
    assert (Ie : incr_list e) by (apply Hg; left; reflexivity). set (i := nth 0 idx 0%nat) in *.
    assert (nth 0 e 0 <= nth i e 0) by (destruct (Nat.eq_dec 0 i) as [<-|]; [lra|left; apply Ie; lia]).
    assert (nth (S i) e 0 <= nth (length e - 1) e 0) by (destruct (Nat.eq_dec (S i) (length e - 1)) as [->|]; [lra|left; apply Ie; lia]). lra.
  - split; [reflexivity|]. intros j Hj. cbn [unsqueeze Nat.eqb]. destruct (Nat.eqb_spec n 1) as [C|_]; [contradiction|]. cbn [unsqueeze].
    destruct (Hin j Hj) as (idx & Hi & Hb & _). specialize (Hb 0%nat ltac:(cbn; lia)). destruct (bin_edge _ _ 0 Hg Hi ltac:(cbn; lia)) as [Le Lt]. cbn [nth] in *. unfold column in Hb.
    assert (Ie : incr_list e) by (apply Hg; left; reflexivity). set (i := nth 0 idx 0%nat) in *.
    assert (nth 0 e 0 <= nth i e 0) by (destruct (Nat.eq_dec 0 i) as [<-|]; [lra|left; apply Ie; lia]).
    assert (nth (S i) e 0 <= nth (length e - 1) e 0) by (destruct (Nat.eq_dec (S i) (length e - 1)) as [->|]; [lra|left; apply Ie; lia]). lra.
Qed.

(* ------------------------------------------------------------ C57 *)
Lemma nats_eqb_true l m : nats_eqb l m = true <-> l = m.
Proof. unfold nats_eqb. destruct (list_eq_dec Nat.eq_dec l m); split; intros; try congruence; assumption. Qed.
Lemma check_none_inv ea dens es : shp dens <> [] -> check_grid ea dens None = Ok es -> edges_given ea es /\ shp dens = lens es.
Proof.
  intros Hne H. unfold check_grid in H. destruct ea as [e|l].
  - destruct (Nat.eqb_spec (length (shp dens)) 1) as [D|D]; cbn [bind fst snd] in H.
    + change (length [e]) with 1%nat in H. rewrite D, Nat.eqb_refl in H. cbn [negb] in H. destruct (nats_eqb [length e] (shp dens)) eqn:E; [|discriminate H]. cbn [negb] in H. injection H as <-.
      apply nats_eqb_true in E. split; [right; exists e; split; reflexivity|symmetry; exact E].
    + destruct (Nat.eqb _ (length (shp dens))); [|discriminate H]. cbn [negb] in H. destruct (nats_eqb _ _); discriminate H.
  - cbn [bind fst snd] in H. destruct (Nat.eqb (length l) (length (shp dens))); [|discriminate H]. cbn [negb] in H. destruct (nats_eqb _ _) eqn:E; [|discriminate H]. cbn in H. injection H as <-.
    apply nats_eqb_true in E. split; [left; reflexivity|symmetry; exact E].
Qed.
Lemma check_none_ok ea dens es : edges_given ea es -> shp dens = lens es -> check_grid ea dens None = Ok es.
Proof.
  intros Hea Hs. unfold check_grid. destruct Hea as [->|[e [-> ->]]].
  - cbn [bind fst snd]. rewrite Hs, lens_length, Nat.eqb_refl. cbn [negb]. fold (lens es). rewrite nats_eqb_refl. reflexivity.
  - rewrite Hs. change (length (lens [e])) with 1%nat. rewrite Nat.eqb_refl. cbn [bind fst snd]. change (length [e]) with 1%nat. rewrite Nat.eqb_refl. cbn [negb]. change [length e] with (lens [e]). rewrite nats_eqb_refl. reflexivity.
Qed.
Lemma size_zero sh : (exists n, In n sh /\ n = 0%nat) -> size_of_shape sh = 0%nat.
Proof. intros (n & Hn & ->). induction sh as [|k sh IH]; [destruct Hn|]. cbn. destruct Hn as [->|Hn]; [reflexivity|]. specialize (IH Hn). unfold size_of_shape in IH. rewrite IH. lia. Qed.
Lemma mass_empty_axis dens es : shp dens = lens es -> (exists e, In e es /\ e = []) -> trapz_dens_to_mass dens es None = Err AssertionError.
Proof.
  intros Hs (e & He & ->). unfold trapz_dens_to_mass. rewrite Hs. fold (lens es). rewrite nats_eqb_refl. cbn [negb all_axes]. cbv zeta.
  replace (forallb _ _) with true by (symmetry; apply forallb_forall; intros k Hk; apply in_seq in Hk; apply Nat.ltb_lt; lia). cbn [negb].
  replace (existsb _ _) with true; [reflexivity|]. symmetry. apply existsb_exists. apply (In_nth _ _ []) in He. destruct He as [k [Hk E]]. exists k. split; [apply in_seq; lia|]. rewrite E. reflexivity.
Qed.
Lemma decide_ne (es : list (list R)) : (forall x, In x es -> x <> []) \/ exists e, In e es /\ e = [].
Proof. induction es as [|x es IH]; [left; intros ? []|]. destruct x as [|a x]; [right; exists []; split; [left; reflexivity|reflexivity]|]. destruct IH as [IH|[e [He Hz]]]; [left; intros y [<-|Hy]; [discriminate|apply IH, Hy]|right; exists e; split; [right; exact He|exact Hz]]. Qed.
Lemma cum_empty ord mass : size_of_shape (shp mass) = 0%nat -> data_to_cumulative ord mass = Err IndexError.
Proof. intros H. unfold data_to_cumulative. rewrite <- flatten_length in H. apply length_zero_iff_nil in H. rewrite H. reflexivity. Qed.

Theorem grid_accepted ord ea dens : shp dens <> [] ->
  (exists G, Sample_Grid ord ea dens None None None = Ok G)
  <-> exists edges, edges_given ea edges /\ shp dens = map (@List.length R) edges /\ forall e, In e edges -> (2 <= length e)%nat.
Proof.
  intros Hne. unfold Sample_Grid, make_grid. split.
  - intros [G H]. destruct (check_grid ea dens None) as [es|] eqn:C; [|discriminate H]. cbn [bind] in H. destruct (check_none_inv _ _ _ Hne C) as [Hea Hs]. exists es. split; [exact Hea|]. split; [exact Hs|].
    destruct (decide_ne es) as [N|N]; [|rewrite (mass_empty_axis _ _ Hs N) in H; discriminate H].
    destruct (mass_run dens es Hs N) as (m & Em & Sm & _). rewrite Em in H. cbn [bind] in H. intros e He. destruct (le_lt_dec 2 (length e)) as [|L]; [assumption|exfalso].
    rewrite (cum_empty ord m) in H; [discriminate H|]. rewrite Sm. apply size_zero. exists (length e - 1)%nat. split; [unfold masses; apply in_map_iff; exists e; split; [reflexivity|exact He]|lia].
  - intros (es & Hea & Hs & H2). rewrite (check_none_ok _ _ _ Hea Hs). cbn [bind]. assert (N : forall x, In x es -> x <> []) by (intros x Hx ->; specialize (H2 [] Hx); cbn in H2; lia).
    destruct (mass_run dens es Hs N) as (m & Em & Sm & _). rewrite Em. cbn [bind]. destruct (cum_ok ord m) as [ic Ec].
    { rewrite Sm. apply size_pos. intros n Hn. unfold masses in Hn. apply in_map_iff in Hn. destruct Hn as [e [<- He]]. specialize (H2 e He). lia. }
    rewrite Ec. cbn [bind]. eexists. reflexivity.
Qed.
(** Shapes that do not fit raise ValueError; a flat vector for a density of several dimensions, all of length one, TypeError. *)
Theorem grid_rejected ord ea dens sdens smass : shp dens <> [] ->
  (forall edges, edges_given ea edges -> shp dens <> map (@List.length R) edges) ->
  Sample_Grid ord ea dens None sdens smass = Err ValueError
  \/ Sample_Grid ord ea dens None sdens smass = Err TypeError /\ exists e, ea = EFlat e /\ (2 <= length e)%nat /\ shp dens = repeat 1%nat (length e).
Proof.
  intros Hne H. unfold Sample_Grid, make_grid. destruct ea as [e|l].
  - unfold check_grid. destruct (Nat.eqb_spec (length (shp dens)) 1) as [D|D].
    + left. cbn [bind fst snd]. change (length [e]) with 1%nat. rewrite D, Nat.eqb_refl. cbn [negb]. rewrite nats_eqb_neq; [reflexivity|]. intros C. apply (H [e]); [right; exists e; split; reflexivity|symmetry; exact C].
    + cbn [bind fst snd]. rewrite map_length. destruct (Nat.eqb_spec (length e) (length (shp dens))) as [L|L]; [|left; reflexivity]. cbn [negb].
      destruct (nats_eqb (map (fun _ : R => 1%nat) e) (shp dens)) eqn:E; [|left; reflexivity]. right. split; [reflexivity|]. apply nats_eqb_true in E. exists e. split; [reflexivity|]. split.
      * destruct (shp dens); [congruence|]. cbn in *. lia.
      * rewrite <- E. clear. induction e as [|x e IH]; cbn; [reflexivity|]. rewrite IH. reflexivity.
  - left. unfold check_grid. cbn [bind fst snd]. destruct (Nat.eqb (length l) (length (shp dens))); [|reflexivity]. cbn [negb]. rewrite nats_eqb_neq; [reflexivity|]. intros C. apply (H l); [left; reflexivity|symmetry; exact C].
Qed.
Theorem grid_short_edges ord ea edges dens sdens smass : edges_given ea edges -> shp dens = map (@List.length R) edges -> sdens = None ->
  (forall e, In e edges -> e <> []) -> (exists e, In e edges /\ length e = 1%nat) ->
  Sample_Grid ord ea dens None sdens smass = Err IndexError.
Proof.
  intros Hea Hs -> N (e & He & L1). unfold Sample_Grid, make_grid. rewrite (check_none_ok _ _ _ Hea Hs). cbn [bind]. destruct (mass_run dens edges Hs N) as (m & Em & Sm & _). rewrite Em. cbn [bind].
  rewrite (cum_empty ord m); [destruct smass; reflexivity|]. rewrite Sm. apply size_zero. exists (length e - 1)%nat. split; [unfold masses; apply in_map_iff; exists e; split; [reflexivity|exact He]|lia].
Qed.

(* ------------------------------------------------------------ shapes of the masses *)
Lemma combine_same_ne a b : length a = length b -> existsb (fun p : nat * nat => negb (Nat.eqb (fst p) (snd p))) (combine a b) = false -> a = b.
Proof.
  revert b. induction a as [|x a IH]; intros [|y b] L H; cbn in *; try lia; [reflexivity|]. apply Bool.orb_false_iff in H. destruct H as [H1 H2]. destruct (Nat.eqb_spec x y) as [->|]; [|discriminate H1]. f_equal. apply IH; [lia|exact H2].
Qed.
Theorem mass_shape_checked ord ea edges dens mass sdens smass : edges_given ea edges -> good_edges edges -> shp dens = map (@List.length R) edges ->
  length (shp mass) = length edges -> shp mass <> bin_shape edges -> Sample_Grid ord ea dens (Some mass) sdens smass = Err ValueError.
Proof.
  intros Hea Hg Hs L Hne. unfold Sample_Grid, make_grid, check_grid.
  assert (SD : shape_differs (shp mass) (map (fun n => (n - 1)%nat) (lens edges)) = true).
  { rewrite bins_lens. unfold shape_differs. replace (Nat.eqb (length (shp mass)) (length (bin_shape edges))) with true by (symmetry; apply Nat.eqb_eq; unfold bin_shape; rewrite map_length; exact L).
    apply Bool.not_false_is_true. intros C. apply Hne. apply combine_same_ne; [unfold bin_shape; rewrite map_length; exact L|exact C]. }
  destruct Hea as [->|[e [-> ->]]]; cbn [bind fst snd].
  - rewrite Hs, map_length, Nat.eqb_refl. cbn [negb]. rewrite nats_eqb_refl. cbn [negb]. fold (lens edges). rewrite SD, Bool.orb_true_r. reflexivity.
  - rewrite Hs. change (length (map _ [e])) with 1%nat. rewrite Nat.eqb_refl. cbn [bind fst snd]. change (length [e]) with 1%nat. rewrite Nat.eqb_refl. cbn [negb]. change [length e] with (lens [e]). rewrite nats_eqb_refl. cbn [negb]. fold (lens [e]). rewrite SD, Bool.orb_true_r. reflexivity.
Qed.

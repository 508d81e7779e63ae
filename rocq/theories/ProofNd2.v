(** Proofs about trapz_nd, trapz_dens_to_mass and cumtrapz. *)
From Coq Require Import ZArith Permutation.
From Verif Require Import Base ModelLinAlg ModelKernels ModelKDE ModelInterp ModelResample ModelUtils ModelNd SpecUtils SpecNd ProofUtils ProofUtils2 ProofUtils3 ProofUtils4 ProofNd.
Open Scope R_scope.
Notation length := List.length.

(** Widths product by structural recursion. *)
Fixpoint vol (edges : list (list R)) (idx : list nat) : R :=
  match edges, idx with
  | x :: r, i :: idx' => (nth (S i) x 0 - nth i x 0) * vol r idx'
  | _, _ => 1
  end.
Definition lens (edges : list (list R)) : list nat := map (@length R) edges.
Definition masses (edges : list (list R)) : list nat := map (fun x => (length x - 1)%nat) edges.

Lemma existsb_eqb_In k l : existsb (Nat.eqb k) l = true <-> In k l.
Proof. rewrite existsb_exists. split; [intros [x [H E]]; apply Nat.eqb_eq in E; subst; exact H|]. intros H. exists k. split; [exact H|apply Nat.eqb_refl]. Qed.
Lemma volume_vol es idx : inb (masses es) idx -> forall pre,
  volume_from (pre ++ es) (seq 0 (length (pre ++ es))) (length pre) idx = vol es idx.
Proof.
  unfold masses. intros H. remember (map _ es) as sh eqn:Hs. revert es Hs. induction H as [|i n idx sh Hi Hf IH]; intros es Hs pre.
  - destruct es; [reflexivity|discriminate Hs].
  - destruct es as [|x es]; [discriminate Hs|]. cbn [map] in Hs. injection Hs as Hn Hs. cbn [volume_from vol].
    unfold width_at. replace (existsb (Nat.eqb (length pre)) (seq 0 (length (pre ++ x :: es)))) with true.
    + rewrite app_nth2 by lia. rewrite Nat.sub_diag. cbn [nth]. rewrite diff_nth by lia. unfold vget. f_equal.
      specialize (IH es Hs (pre ++ [x])). rewrite <- app_assoc in IH. cbn [app] in IH.
      replace (length (pre ++ [x])) with (S (length pre)) in IH by (rewrite app_length; cbn; lia). exact IH.
    + symmetry. apply existsb_eqb_In. rewrite app_length. cbn [length]. apply in_seq. lia.
Qed.

Definition avg_corners (edges : list (list R)) (f : list nat -> R) (idx : list nat) : R :=
  asum (repeat 2%nat (length edges)) (fun bits => f (add_idx idx bits)) * vol edges idx / INR (2 ^ length edges).

Lemma avg_total edges : forall f, asum (masses edges) (avg_corners edges f) = trapezoids edges f.
Proof.
  unfold avg_corners, masses. induction edges as [|x es IH]; intros f.
  - cbn. lra.
  - cbn [map asum trapezoids length repeat vol]. unfold trapezoid. apply rsum_ext. intros i Hi.
    assert (H2 : INR (2 ^ S (length es)) = 2 * INR (2 ^ length es)) by (cbn [Nat.pow]; rewrite mult_INR; f_equal; cbn; lra).
    assert (Hp : INR (2 ^ length es) <> 0) by (apply not_0_INR, Nat.pow_nonzero; lia).
    rewrite <- (IH (fun idx => f (i :: idx))), <- (IH (fun idx => f (S i :: idx))), <- asum_plus.
    unfold Rdiv at 2. rewrite Rmult_assoc, <- asum_scal_r, <- asum_scal. apply asum_ext. intros idx _. rewrite H2. cbn [rsum add_idx].
    rewrite Nat.add_0_r, Nat.add_1_r, Rplus_0_l. field. exact Hp.
Qed.

(** trapz_nd, iterated from the last axis *)
Lemma ins_nth_app {A} (v : A) (l : list A) : ins_nth (length l) v l = l ++ [v].
Proof. induction l as [|a l IH]; cbn; [reflexivity|]. rewrite IH. reflexivity. Qed.
Lemma rem_nth_app {A} (v : A) (l : list A) : rem_nth (length l) (l ++ [v]) = l.
Proof. induction l as [|a l IH]; cbn; [reflexivity|]. rewrite IH. reflexivity. Qed.
Lemma trapezoid_ext x g h : (forall i, (i < length x)%nat -> g i = h i) -> trapezoid x g = trapezoid x h.
Proof. intros H. unfold trapezoid. apply rsum_ext. intros j Hj. rewrite !H by lia. reflexivity. Qed.
Lemma trapezoids_ext es f : forall g, (forall idx, inb (lens es) idx -> f idx = g idx) -> trapezoids es f = trapezoids es g.
Proof.
  revert f. induction es as [|x es IH]; intros f g H; cbn [trapezoids]; [apply H; constructor|]. apply trapezoid_ext. intros i Hi. apply IH.
  intros idx Hx. apply H. constructor; assumption.
Qed.
Lemma trapezoids_snoc es x f : trapezoids (es ++ [x]) f = trapezoids es (fun idx => trapezoid x (fun i => f (idx ++ [i]))).
Proof.
  revert f. induction es as [|y es IH]; intros f; cbn [app trapezoids]; [reflexivity|]. apply trapezoid_ext. intros i _. apply IH.
Qed.

Lemma trapz_fold (es : list (list R)) : forall (rest : list (list R)) (a : nda), shp a = lens es ->
  let r := fold_left (fun t ii => trapz_ax ii (nth ii (es ++ rest) []) t) (rev (seq 0 (length es))) a in
  shp r = [] /\ at_ r [] = trapezoids es (at_ a).
Proof.
  unfold lens. induction es as [|x es IH] using rev_ind; intros rest a Hs; cbv zeta.
  - cbn. rewrite Hs. split; reflexivity.
  - rewrite app_length. cbn [length]. rewrite seq_app, rev_app_distr. cbn [seq rev app fold_left].
    rewrite Nat.add_0_l, <- app_assoc. cbn [app]. rewrite app_nth2 by lia. rewrite Nat.sub_diag. cbn [nth].
    specialize (IH (x :: rest) (trapz_ax (length es) x a)). cbv zeta in IH.
    rewrite map_app in Hs. cbn [map] in Hs.
    destruct IH as [H1 H2].
    + cbn [trapz_ax shp]. rewrite Hs. rewrite <- (map_length (@length R) es). apply rem_nth_app.
    + split; [exact H1|]. rewrite H2, trapezoids_snoc. apply trapezoids_ext. intros idx Hx. cbn [trapz_ax at_]. unfold trapezoid.
      apply rsum_ext. intros j _. apply inb_length in Hx. unfold lens in Hx. rewrite map_length in Hx. rewrite <- Hx, !ins_nth_app. unfold vget. lra.
Qed.

Lemma nats_eqb_refl l : nats_eqb l l = true.
Proof. unfold nats_eqb. destruct (list_eq_dec Nat.eq_dec l l); [reflexivity|congruence]. Qed.
Lemma nats_eqb_neq l m : l <> m -> nats_eqb l m = false.
Proof. unfold nats_eqb. destruct (list_eq_dec Nat.eq_dec l m); [congruence|reflexivity]. Qed.

Theorem trapz_nd_value data edges : shp data = lens edges -> exists r, trapz_nd data edges = Ok r /\ shp r = [] /\ at_ r [] = trapezoids edges (at_ data).
Proof.
  intros H. unfold trapz_nd. rewrite H. fold (lens edges). rewrite nats_eqb_refl. cbn [negb]. eexists. split; [reflexivity|].
  pose proof (trapz_fold edges [] data H) as Hf. cbv zeta in Hf. rewrite app_nil_r in Hf. exact Hf.
Qed.

(* ------------------------------------------------------------ trapz_dens_to_mass, all axes *)
Lemma skip_corner_all D bits : length bits = D -> skip_corner (seq 0 D) bits = false.
Proof.
  intros H. unfold skip_corner. destruct (existsb _ (seq 0 (length bits))) eqn:E; [|reflexivity]. apply existsb_exists in E. destruct E as [j [Hj E]].
  rewrite H in Hj. apply existsb_eqb_In in Hj. rewrite Hj in E. discriminate E.
Qed.
Lemma inb_repeat2_length D bits : inb (repeat 2%nat D) bits -> length bits = D.
Proof. intros H. apply inb_length in H. rewrite repeat_length in H. exact H. Qed.
Lemma shp_mass_all edges : shp_mass edges (seq 0 (length edges)) = masses edges.
Proof.
  unfold shp_mass, masses. apply (nth_ext _ _ 0%nat 0%nat); [rewrite !map_length, seq_length; reflexivity|]. intros n Hn. rewrite map_length, seq_length in Hn.
  match goal with |- context [map ?f (seq 0 ?m)] => set (g := f) end. rewrite (nth_indep _ 0%nat (g 0%nat)) by (rewrite map_length, seq_length; exact Hn).
  rewrite (map_nth g), seq_nth by exact Hn. unfold g. rewrite Nat.add_0_l. replace (existsb (Nat.eqb n) (seq 0 (length edges))) with true by (symmetry; apply existsb_eqb_In, in_seq; lia).
  set (h := fun x : list R => (length x - 1)%nat). rewrite (nth_indep _ 0%nat (h [])) by (rewrite map_length; exact Hn). rewrite (map_nth h). reflexivity.
Qed.

Lemma mass_run pdf edges : shp pdf = lens edges -> (forall x, In x edges -> x <> []) ->
  exists r, trapz_dens_to_mass pdf edges None = Ok r /\ shp r = masses edges /\ forall idx, inb (masses edges) idx -> at_ r idx = avg_corners edges (at_ pdf) idx.
Proof.
  intros H He. unfold trapz_dens_to_mass. rewrite H. fold (lens edges). rewrite nats_eqb_refl. cbn [negb all_axes]. cbv zeta.
  replace (forallb (fun ii => Nat.ltb ii (length edges)) (seq 0 (length edges))) with true.
  2:{ symmetry. apply forallb_forall. intros k Hk. apply in_seq in Hk. apply Nat.ltb_lt. lia. }
  cbn [negb]. destruct (existsb (fun ii => Nat.eqb (length (nth ii edges [])) 0) (seq 0 (length edges))) eqn:E.
  { exfalso. apply existsb_exists in E. destruct E as [k [Hk E]]. apply in_seq in Hk. apply Nat.eqb_eq, length_zero_iff_nil in E. apply (He (nth k edges [])); [apply nth_In; lia|exact E]. }
  eexists. split; [reflexivity|]. cbn [shp at_]. split; [apply shp_mass_all|]. intros idx Hi. unfold avg_corners. rewrite seq_length.
  apply (f_equal (fun z => z / _)). rewrite <- asum_scal_r. apply asum_ext. intros bits Hb. apply inb_repeat2_length in Hb. rewrite skip_corner_all by exact Hb.
  f_equal. apply (volume_vol edges idx Hi []).
Qed.

Lemma vol_pos edges idx : (forall x, In x edges -> incr_list x) -> inb (masses edges) idx -> 0 < vol edges idx.
Proof.
  intros He H. unfold masses in H. remember (map _ edges) as sh eqn:Hs. revert edges He Hs. induction H as [|i n idx sh Hi _ IH]; intros [|x es] He Hs; try discriminate Hs; cbn [vol]; try lra.
  cbn [map] in Hs. injection Hs as Hn Hs. apply Rmult_lt_0_compat.
  - enough (nth i x 0 < nth (S i) x 0) by lra. apply (He x (or_introl eq_refl)); lia.
  - apply IH; [|exact Hs]. intros y Hy. apply He. right. exact Hy.
Qed.
Lemma inb_add_bits sh idx bits : inb (map (fun n => (n - 1)%nat) sh) idx -> inb (repeat 2%nat (length sh)) bits -> inb sh (add_idx idx bits).
Proof.
  unfold inb. revert idx bits. induction sh as [|n sh IH]; intros idx bits H Hb; cbn in *; inversion H; subst; [constructor|]. inversion Hb; subst. cbn [add_idx]. constructor; [lia|]. apply IH; assumption.
Qed.
Lemma masses_lens edges : masses edges = map (fun n => (n - 1)%nat) (lens edges).
Proof. unfold masses, lens. rewrite map_map. reflexivity. Qed.
Lemma lens_length edges : length (lens edges) = length edges.
Proof. apply map_length. Qed.
Lemma avg_nonneg edges f idx : (forall x, In x edges -> incr_list x) -> inb (masses edges) idx -> (forall j, inb (lens edges) j -> 0 <= f j) -> 0 <= avg_corners edges f idx.
Proof.
  intros He Hi Hf. unfold avg_corners. apply Rmult_le_pos; [apply Rmult_le_pos|].
  - apply asum_nonneg. intros bits Hb. apply Hf. apply inb_add_bits; [rewrite <- masses_lens; exact Hi|rewrite lens_length; exact Hb].
  - left. apply vol_pos; assumption.
  - left. apply Rinv_0_lt_compat, lt_0_INR. pose proof (Nat.pow_nonzero 2 (length edges)). lia.
Qed.

(** C41 *)
Theorem mass_conserved pdf edges : shp pdf = lens edges -> (forall x, In x edges -> x <> []) ->
  exists m t, trapz_dens_to_mass pdf edges None = Ok m /\ trapz_nd pdf edges = Ok t
  /\ shp m = map (fun n => (n - 1)%nat) (shp pdf) /\ shp t = []
  /\ sumf (at_ m) (all_idx (shp m)) = at_ t [] /\ at_ t [] = trapezoids edges (at_ pdf).
Proof.
  intros H He. destruct (mass_run pdf edges H He) as [m [Hm [Hs Hv]]]. destruct (trapz_nd_value pdf edges H) as [t [Ht [Hts Htv]]].
  exists m, t. split; [exact Hm|]. split; [exact Ht|]. split; [rewrite Hs, H, masses_lens; reflexivity|]. split; [exact Hts|]. split; [|exact Htv].
  rewrite <- asum_list, Htv, <- avg_total, Hs. apply asum_ext. exact Hv.
Qed.
Theorem mass_nonneg pdf edges : shp pdf = lens edges -> (forall x, In x edges -> x <> [] /\ incr_list x) -> (forall idx, inb (shp pdf) idx -> 0 <= at_ pdf idx) ->
  exists m, trapz_dens_to_mass pdf edges None = Ok m /\ forall idx, inb (shp m) idx -> 0 <= at_ m idx.
Proof.
  intros H He Hp. destruct (mass_run pdf edges H (fun x Hx => proj1 (He x Hx))) as [m [Hm [Hs Hv]]]. exists m. split; [exact Hm|]. intros idx Hi. rewrite Hs in Hi.
  rewrite Hv by exact Hi. apply avg_nonneg; [intros x Hx; apply He, Hx|exact Hi|]. rewrite <- H. exact Hp.
Qed.
Theorem mass_mismatch pdf edges axes : length (shp pdf) = length edges -> shp pdf <> map (@List.length R) edges -> trapz_dens_to_mass pdf edges axes = Err ValueError /\ trapz_nd pdf edges = Err ValueError.
Proof. intros _ H. unfold trapz_dens_to_mass, trapz_nd. rewrite nats_eqb_neq by congruence. split; reflexivity. Qed.

(* ------------------------------------------------------------ cumtrapz over all axes *)
Lemma asum_mono i j g : le_idx i j -> (forall k, inb j k -> 0 <= g k) -> asum i g <= asum j g.
Proof.
  intros H. revert g. induction H as [|a b i j Hab _ IH]; intros g Hg; cbn [asum]; [lra|].
  apply Rle_trans with (rsum a (fun c => asum j (fun idx => g (c :: idx)))).
  - apply rsum_le. intros c Hc. apply IH. intros k Hk. apply Hg. constructor; [lia|exact Hk].
  - replace b with (a + (b - a))%nat by lia. rewrite rsum_app. set (u := rsum a _). enough (0 <= rsum (b - a) (fun k => asum j (fun idx => g ((a + k)%nat :: idx)))) by lra.
    apply rsum_nonneg. intros k Hk. apply asum_nonneg. intros idx Hx. apply Hg. constructor; [lia|exact Hx].
Qed.
Lemma cut_masses edges idx : inb (lens edges) idx -> masses (cut_edges edges idx) = idx.
Proof.
  unfold lens, masses. revert idx. induction edges as [|x es IH]; intros idx H; cbn in H; inversion H; subst; [reflexivity|]. cbn [cut_edges map]. rewrite firstn_length. f_equal; [lia|].
  apply IH. assumption.
Qed.
Lemma cut_vol edges idx j : inb (lens edges) idx -> inb idx j -> vol (cut_edges edges idx) j = vol edges j.
Proof.
  unfold lens. revert idx j. induction edges as [|x es IH]; intros idx j H Hj; cbn in H; inversion H; subst; [reflexivity|]. inversion Hj; subst. cbn [cut_edges vol].
  rewrite !nth_firstn_lt by lia. f_equal. apply IH; assumption.
Qed.
Lemma cut_length edges idx : inb (lens edges) idx -> length (cut_edges edges idx) = length edges.
Proof. unfold lens. revert idx. induction edges as [|x es IH]; intros idx H; cbn in H; inversion H; subst; [reflexivity|]. cbn. f_equal. apply IH. assumption. Qed.
Lemma cut_avg edges f idx : inb (lens edges) idx -> asum idx (avg_corners edges f) = trapezoids (cut_edges edges idx) f.
Proof.
  intros H. rewrite <- avg_total, cut_masses by exact H. apply asum_ext. intros j Hj. unfold avg_corners. rewrite cut_length, cut_vol by assumption. reflexivity.
Qed.

(** The cumulative sum as a sum over the lower indices. *)
Lemma cumsum_None a r : cumsum_nd a None = Ok r -> shp r = shp a /\ forall idx, inb (shp a) idx -> at_ r idx = asum (map S idx) (at_ a).
Proof.
  unfold cumsum_nd. intros E. injection E as <-. destruct (cumsum_fold a (length (shp a)) ltac:(lia)) as [H1 H2]. split; [exact H1|].
  intros idx Hi. rewrite H2 by (apply inb_length, Hi). unfold psum. rewrite Nat.sub_diag. reflexivity.
Qed.
Lemma below_pad_true idx n : length idx = n -> below_pad (repeat 1%nat n) idx = existsb (Nat.eqb 0) idx.
Proof. revert idx. induction n as [|n IH]; intros [|i idx] H; cbn in *; try discriminate H; try reflexivity. rewrite IH by lia. destruct i; reflexivity. Qed.
Lemma asum_zero_dim idx f : existsb (Nat.eqb 0) idx = true -> asum idx f = 0.
Proof.
  revert f. induction idx as [|i idx IH]; intros f H; cbn in H; [discriminate H|]. cbn [asum]. destruct i as [|i]; [reflexivity|]. cbn [orb] in H.
  apply rsum_zero_ext. intros k _. apply IH. exact H.
Qed.
Lemma sub_ones idx n : length idx = n -> existsb (Nat.eqb 0) idx = false -> map S (sub_idx idx (repeat 1%nat n)) = idx.
Proof.
  revert idx. induction n as [|n IH]; intros [|i idx] H E; cbn in *; try discriminate H; try reflexivity. apply orb_false_iff in E. destruct E as [E1 E2].
  destruct i as [|i]; [discriminate E1|]. rewrite IH by (try lia; exact E2). f_equal. lia.
Qed.
Lemma sub_ones_inb sh idx n : length idx = n -> existsb (Nat.eqb 0) idx = false -> inb sh idx -> inb (map (fun n => (n - 1)%nat) sh) (sub_idx idx (repeat 1%nat n)).
Proof.
  intros Hl E H. revert n Hl E. induction H as [|i m idx sh Hi _ IH]; intros [|n] Hl E; cbn in *; try discriminate Hl; [constructor|].
  apply orb_false_iff in E. destruct E as [E1 E2]. destruct i as [|i]; [discriminate E1|]. constructor; [lia|]. apply IH; [lia|exact E2].
Qed.
Lemma add_ones sh : (forall n, In n sh -> (0 < n)%nat) -> add_idx (map (fun n => (n - 1)%nat) sh) (repeat 1%nat (length sh)) = sh.
Proof. induction sh as [|n sh IH]; intros H; cbn; [reflexivity|]. rewrite IH by (intros k Hk; apply H; right; exact Hk). f_equal. specialize (H n (or_introl eq_refl)). lia. Qed.

Lemma cumtrapz_run pdf edges : shp pdf = lens edges -> (forall x, In x edges -> x <> []) ->
  exists r, cumtrapz pdf edges true None = Ok r /\ shp r = shp pdf /\ forall idx, inb (shp pdf) idx -> at_ r idx = asum idx (avg_corners edges (at_ pdf)).
Proof.
  intros H He. unfold cumtrapz. destruct (mass_run pdf edges H He) as [m [Hm [Hs Hv]]]. rewrite Hm. cbn [bind].
  destruct (cumsum_nd m None) as [c|e] eqn:Ec; [|discriminate Ec]. cbn [bind]. destruct (cumsum_None m c Ec) as [Hc1 Hc2].
  eexists. split; [reflexivity|]. cbn [pad_front shp at_]. rewrite Hc1, Hs, masses_lens, map_length. split.
  - rewrite H. apply add_ones. intros n Hn. unfold lens in Hn. apply in_map_iff in Hn. destruct Hn as [x [<- Hx]]. specialize (He x Hx). destruct x; [congruence|cbn; lia].
  - intros idx Hi. rewrite H in Hi. pose proof (inb_length _ _ Hi) as Hl. rewrite below_pad_true by exact Hl. destruct (existsb (Nat.eqb 0) idx) eqn:E.
    + symmetry. apply asum_zero_dim, E.
    + rewrite Hc2 by (rewrite Hs, masses_lens; apply sub_ones_inb; assumption). rewrite sub_ones by assumption. apply asum_ext. intros j Hj. apply Hv.
      rewrite masses_lens. clear - Hi Hj. revert j Hj. induction Hi as [|i n idx sh Hin _ IH]; intros j Hj; inversion Hj; subst; constructor; [lia|]. apply IH. assumption.
Qed.

(** C42 *)
Theorem cumtrapz_value pdf edges : shp pdf = lens edges -> (forall x, In x edges -> x <> []) ->
  exists r, cumtrapz pdf edges true None = Ok r /\ shp r = shp pdf
  /\ (forall idx, inb (shp pdf) idx -> at_ r idx = trapezoids (cut_edges edges idx) (at_ pdf))
  /\ (forall idx, inb (shp pdf) idx -> In 0%nat idx -> at_ r idx = 0)
  /\ at_ r (map (fun n => (n - 1)%nat) (shp pdf)) = trapezoids edges (at_ pdf).
Proof.
  intros H He. destruct (cumtrapz_run pdf edges H He) as [r [Hr [Hs Hv]]]. exists r. split; [exact Hr|]. split; [exact Hs|].
  split; [|split].
  - intros idx Hi. rewrite Hv by exact Hi. apply cut_avg. rewrite <- H. exact Hi.
  - intros idx Hi H0. rewrite Hv by exact Hi. apply asum_zero_dim. apply existsb_exists. exists 0%nat. split; [exact H0|reflexivity].
  - rewrite Hv.
    + rewrite <- avg_total, H, <- masses_lens. reflexivity.
    + rewrite H. clear - He. unfold lens, inb. induction edges as [|x es IH]; cbn; constructor; [|apply IH; intros y Hy; apply He; right; exact Hy].
      specialize (He x (or_introl eq_refl)). destruct x; [congruence|cbn; lia].
Qed.
Theorem cumtrapz_monotone pdf edges : shp pdf = lens edges -> (forall x, In x edges -> x <> [] /\ incr_list x) -> (forall idx, inb (shp pdf) idx -> 0 <= at_ pdf idx) ->
  exists r, cumtrapz pdf edges true None = Ok r /\ forall i j, inb (shp pdf) j -> le_idx i j -> 0 <= at_ r i <= at_ r j.
Proof.
  intros H He Hp. destruct (cumtrapz_run pdf edges H (fun x Hx => proj1 (He x Hx))) as [r [Hr [Hs Hv]]]. exists r. split; [exact Hr|].
  intros i j Hj Hij. assert (Hi : inb (shp pdf) i) by (clear - Hj Hij; revert i Hij; induction Hj as [|b n j sh Hb _ IH]; intros i Hij; inversion Hij; subst; constructor; [lia|apply IH; assumption]).
  rewrite !Hv by assumption.
  assert (Hn : forall b, inb (shp pdf) b -> forall k, inb b k -> 0 <= avg_corners edges (at_ pdf) k).
  { intros b Hb k Hk. apply avg_nonneg; [intros x Hx; apply He, Hx| |rewrite <- H; exact Hp]. rewrite masses_lens, <- H.
    clear - Hb Hk. revert k Hk. induction Hb as [|i n idx sh Hin _ IH]; intros j Hj; inversion Hj; subst; constructor; [lia|]. apply IH. assumption. }
  split; [apply asum_nonneg; apply Hn, Hi|]. apply asum_mono; [exact Hij|]. apply Hn, Hj.
Qed.
Theorem cumtrapz_no_prepend pdf edges : shp pdf = lens edges -> (forall x, In x edges -> x <> []) ->
  exists r, cumtrapz pdf edges false None = Ok r /\ shp r = map (fun n => (n - 1)%nat) (shp pdf)
  /\ forall idx, inb (shp r) idx -> at_ r idx = trapezoids (cut_edges edges (map S idx)) (at_ pdf).
Proof.
  intros H He. unfold cumtrapz. destruct (mass_run pdf edges H He) as [m [Hm [Hs Hv]]]. rewrite Hm. cbn [bind].
  destruct (cumsum_nd m None) as [c|e] eqn:Ec; [|discriminate Ec]. cbn [bind]. destruct (cumsum_None m c Ec) as [Hc1 Hc2]. exists c. split; [reflexivity|].
  split; [rewrite Hc1, Hs, H, masses_lens; reflexivity|]. intros idx Hi. rewrite Hc1 in Hi. rewrite Hc2 by exact Hi. rewrite Hs in Hi. rewrite <- cut_avg.
  - apply asum_ext. intros j Hj. apply Hv. clear - Hi Hj. remember (masses edges) as sh. clear Heqsh. revert j Hj. induction Hi as [|i n idx sh Hin _ IH]; intros j Hj; inversion Hj; subst; constructor; [lia|]. apply IH. assumption.
  - rewrite masses_lens in Hi. clear - Hi. remember (lens edges) as sh. clear Heqsh. revert idx Hi. induction sh as [|n sh IH]; intros idx Hi; inversion Hi; subst; cbn; constructor; [lia|]. apply IH. assumption.
Qed.

(* ------------------------------------------------------------ along one axis *)
Fixpoint skip_from (axes : list nat) (ii : nat) (bits : list nat) : bool :=
  match bits with
  | [] => false
  | b :: r => orb (andb (negb (existsb (Nat.eqb ii) axes)) (Nat.ltb 0 b)) (skip_from axes (S ii) r)
  end.
Lemma skip_corner_from axes bits : skip_corner axes bits = skip_from axes 0 bits.
Proof.
  unfold skip_corner.
  enough (G : forall pre, existsb (fun jj => andb (negb (existsb (Nat.eqb jj) axes)) (Nat.ltb 0 (nth jj (pre ++ bits) 0%nat))) (seq (length pre) (length bits)) = skip_from axes (length pre) bits) by apply (G []).
  induction bits as [|b bits IH]; intros pre; [reflexivity|]. cbn [length seq existsb skip_from]. rewrite app_nth2 by lia. rewrite Nat.sub_diag. cbn [nth]. f_equal.
  specialize (IH (pre ++ [b])). rewrite <- app_assoc in IH. cbn [app] in IH. replace (length (pre ++ [b])) with (S (length pre)) in IH by (rewrite app_length; cbn; lia). exact IH.
Qed.
Lemma asum_skip_none axes D g : forall ii, (forall k, In k axes -> (k < ii)%nat) ->
  asum (repeat 2%nat D) (fun bits => if skip_from axes ii bits then 0 else g bits) = g (repeat 0%nat D).
Proof.
  revert g. induction D as [|D IH]; intros g ii H; [reflexivity|]. cbn [repeat asum rsum].
  assert (E : existsb (Nat.eqb ii) axes = false).
  { destruct (existsb (Nat.eqb ii) axes) eqn:E; [|reflexivity]. apply existsb_eqb_In, H in E. lia. }
  cbn [skip_from]. rewrite E. cbn [negb andb]. change (Nat.ltb 0 0) with false. change (Nat.ltb 0 1) with true. cbn [orb].
  rewrite (IH (fun bits => g (0%nat :: bits)) (S ii)) by (intros k Hk; specialize (H k Hk); lia). rewrite (asum_zero _ (fun _ => 0)) by reflexivity. ring.
Qed.
Lemma asum_skip_one D k ii g : (k < D)%nat ->
  asum (repeat 2%nat D) (fun bits => if skip_from [(ii + k)%nat] ii bits then 0 else g bits) = g (repeat 0%nat D) + g (set_nth k 1%nat (repeat 0%nat D)).
Proof.
  revert k ii g. induction D as [|D IH]; intros k ii g H; [lia|]. cbn [repeat asum rsum skip_from existsb]. destruct k as [|k].
  - rewrite Nat.add_0_r, Nat.eqb_refl. cbn [orb negb andb set_nth].
    rewrite !(asum_skip_none [ii] D _ (S ii)) by (intros k [<-|[]]; lia). ring.
  - destruct (Nat.eqb_spec ii (ii + S k)); [lia|]. cbn [orb negb andb]. change (Nat.ltb 0 0) with false. change (Nat.ltb 0 1) with true. cbn [orb].
    rewrite (asum_zero _ (fun _ => 0)) by reflexivity. replace (ii + S k)%nat with (S ii + k)%nat by lia. rewrite (IH k (S ii) (fun bits => g (0%nat :: bits))) by lia. cbn [set_nth]. ring.
Qed.
Lemma volume_none edges axes idx : forall ii, (forall k, In k axes -> (k < ii)%nat) -> volume_from edges axes ii idx = 1.
Proof.
  induction idx as [|i idx IH]; intros ii H; [reflexivity|]. cbn [volume_from]. unfold width_at. destruct (existsb (Nat.eqb ii) axes) eqn:E.
  - apply existsb_eqb_In, H in E. lia.
  - rewrite IH by (intros k Hk; specialize (H k Hk); lia). ring.
Qed.
Lemma volume_one edges k idx : forall ii, (k < length idx)%nat -> volume_from edges [(ii + k)%nat] ii idx = vget (diff (nth (ii + k) edges [])) (nth k idx 0%nat).
Proof.
  revert k. induction idx as [|i idx IH]; intros k ii H; cbn in H; [lia|]. cbn [volume_from nth]. unfold width_at. cbn [existsb]. destruct k as [|k].
  - rewrite Nat.add_0_r, Nat.eqb_refl. cbn [orb]. rewrite volume_none by (intros k [<-|[]]; lia). ring.
  - destruct (Nat.eqb_spec ii (ii + S k)); [lia|]. cbn [orb]. replace (ii + S k)%nat with (S ii + k)%nat by lia. rewrite IH by lia. ring.
Qed.
Lemma add_zeros idx n : add_idx idx (repeat 0%nat n) = idx.
Proof. revert n. induction idx as [|i idx IH]; intros [|n]; cbn; try reflexivity. rewrite IH, Nat.add_0_r. reflexivity. Qed.
Lemma add_unit idx k : add_idx idx (set_nth k 1%nat (repeat 0%nat (length idx))) = set_nth k (S (nth k idx 0%nat)) idx.
Proof. revert k. induction idx as [|i idx IH]; intros [|k]; cbn; try reflexivity. - rewrite add_zeros, Nat.add_1_r. reflexivity. - rewrite IH, Nat.add_0_r. reflexivity. Qed.
Lemma shp_mass_one edges k : (k < length edges)%nat -> shp_mass edges [k] = set_nth k (length (nth k edges []) - 1)%nat (lens edges).
Proof.
  intros Hk. unfold shp_mass, lens. apply (nth_ext _ _ 0%nat 0%nat); [rewrite set_nth_length, !map_length, seq_length; reflexivity|]. intros n Hn. rewrite map_length, seq_length in Hn.
  match goal with |- context [map ?f (seq 0 ?m)] => set (g := f) end. rewrite (nth_indep _ 0%nat (g 0%nat)) by (rewrite map_length, seq_length; exact Hn).
  rewrite (map_nth g), seq_nth by exact Hn. unfold g. rewrite Nat.add_0_l. cbn [existsb]. destruct (Nat.eqb_spec n k) as [->|Hne]; cbn [orb].
  - rewrite set_nth_same by (rewrite map_length; exact Hk). reflexivity.
  - rewrite set_nth_other by congruence. change 0%nat with (length (@nil R)). rewrite map_nth. reflexivity.
Qed.

Lemma mass_axis_run pdf edges k : shp pdf = lens edges -> (k < length edges)%nat -> nth k edges [] <> [] ->
  exists r, trapz_dens_to_mass pdf edges (Some [k]) = Ok r /\ shp r = set_nth k (nth k (shp pdf) 0 - 1)%nat (shp pdf)
  /\ forall idx, inb (shp r) idx -> at_ r idx = (nth (S (nth k idx 0%nat)) (nth k edges []) 0 - nth (nth k idx 0%nat) (nth k edges []) 0)
                   * (at_ pdf idx + at_ pdf (set_nth k (S (nth k idx 0%nat)) idx)) / 2.
Proof.
  intros H Hk He. unfold trapz_dens_to_mass. rewrite H. fold (lens edges). rewrite nats_eqb_refl. cbn [negb all_axes forallb existsb]. cbv zeta.
  destruct (Nat.ltb_spec k (length edges)); [|lia]. cbn [andb negb]. destruct (Nat.eqb_spec (length (nth k edges [])) 0) as [E|E].
  { apply length_zero_iff_nil in E. contradiction. }
  cbn [orb]. eexists. split; [reflexivity|]. cbn [shp at_].
  assert (Hnl : nth k (lens edges) 0%nat = length (nth k edges [])) by (unfold lens; change 0%nat with (length (@nil R)); apply map_nth).
  rewrite shp_mass_one, Hnl by exact Hk. split; [reflexivity|]. intros idx Hi. pose proof (inb_length _ _ Hi) as Hl. rewrite set_nth_length, lens_length in Hl.
  assert (Hik : (nth k idx 0 < length (nth k edges []) - 1)%nat).
  { pose proof (inb_nth _ _ k Hi) as Hn. rewrite set_nth_length, lens_length, set_nth_same in Hn by (rewrite lens_length; exact Hk). exact (Hn Hk). }
  rewrite (asum_ext _ _ (fun bits => if skip_from [(0 + k)%nat] 0 bits then 0 else at_ pdf (add_idx idx bits) * volume_from edges [k] 0 idx)) by (intros bits _; rewrite skip_corner_from; reflexivity).
  rewrite (asum_skip_one (length edges) k 0 (fun bits => at_ pdf (add_idx idx bits) * volume_from edges [k] 0 idx) Hk). cbv beta. rewrite add_zeros, <- Hl, add_unit.
  change [k] with [(0 + k)%nat]. rewrite volume_one by lia. rewrite Nat.add_0_l, diff_nth by lia. unfold vget. cbn. field.
Qed.

Lemma set_nth_nth_id (k : nat) (idx : list nat) v : nth k idx 0%nat = v -> set_nth k v idx = idx.
Proof. intros <-. apply set_nth_id. Qed.
Theorem cumtrapz_axis pdf edges k : shp pdf = lens edges -> (k < length edges)%nat -> nth k edges [] <> [] ->
  exists r, cumtrapz pdf edges false (Some k) = Ok r /\ shp r = set_nth k (nth k (shp pdf) 0 - 1)%nat (shp pdf)
  /\ forall idx, inb (shp r) idx -> at_ r idx = trapezoid (firstn (S (S (nth k idx 0%nat))) (nth k edges [])) (fun j => at_ pdf (set_nth k j idx)).
Proof.
  intros H Hk He. destruct (mass_axis_run pdf edges k H Hk He) as [m [Hm [Hs Hv]]]. unfold cumtrapz. rewrite Hm. cbn [bind].
  assert (Hkm : (k < length (shp m))%nat) by (rewrite Hs, set_nth_length, H, lens_length; exact Hk).
  destruct (cumsum_axis m k Hkm) as [c [Hc [_ [Hc1 Hc2]]]]. rewrite Hc. cbn [bind]. exists c. split; [reflexivity|]. rewrite Hc1. split; [exact Hs|].
  intros idx Hi. rewrite Hc2. unfold trapezoid. pose proof (inb_nth _ _ k Hi Hkm) as Hik. rewrite Hs, set_nth_same in Hik by (rewrite H, lens_length; exact Hk).
  assert (Hnl : nth k (shp pdf) 0%nat = length (nth k edges [])) by (rewrite H; unfold lens; change 0%nat with (length (@nil R)); apply map_nth). rewrite Hnl in Hik.
  rewrite firstn_length. replace (Nat.min (S (S (nth k idx 0%nat))) (length (nth k edges [])) - 1)%nat with (S (nth k idx 0%nat)) by lia.
  apply rsum_ext. intros j Hj. assert (Hlk : (k < length idx)%nat) by (rewrite (inb_length _ _ Hi); exact Hkm).
  rewrite Hv by (apply inb_set; [exact Hi|rewrite Hs, set_nth_same by (rewrite H, lens_length; exact Hk); lia]).
  rewrite set_nth_same by exact Hlk. rewrite set_nth_twice, !nth_firstn_lt by lia. reflexivity.
Qed.
(** With zeros in front the shape is right along [k] and one too many along every other axis. *)
Theorem cumtrapz_axis_padded pdf edges k : shp pdf = lens edges -> (k < length edges)%nat -> nth k edges [] <> [] ->
  exists r, cumtrapz pdf edges true (Some k) = Ok r /\ shp r = set_nth k (nth k (shp pdf) 0%nat) (map S (shp pdf)).
Proof.
  intros H Hk He. destruct (mass_axis_run pdf edges k H Hk He) as [m [Hm [Hs Hv]]]. unfold cumtrapz. rewrite Hm. cbn [bind].
  assert (Hkm : (k < length (shp m))%nat) by (rewrite Hs, set_nth_length, H, lens_length; exact Hk).
  destruct (cumsum_axis m k Hkm) as [c [Hc [_ [Hc1 Hc2]]]]. rewrite Hc. cbn [bind]. eexists. split; [reflexivity|]. cbn [pad_front shp].
  rewrite Hc1, Hs, set_nth_length. assert (Hnl : nth k (shp pdf) 0%nat = length (nth k edges [])) by (rewrite H; unfold lens; change 0%nat with (length (@nil R)); apply map_nth).
  assert (Hpos : (0 < nth k (shp pdf) 0)%nat) by (rewrite Hnl; destruct (nth k edges []); [congruence|cbn; lia]). clear - Hpos. revert k Hpos.
  induction (shp pdf) as [|n sh IH]; intros k Hpos; [destruct k; reflexivity|]. destruct k as [|k]; cbn [set_nth nth length repeat add_idx map] in *.
  - f_equal; [lia|]. clear. induction sh as [|n sh IH]; cbn; [reflexivity|]. rewrite IH, Nat.add_1_r. reflexivity.
  - rewrite Nat.add_1_r, IH by exact Hpos. reflexivity.
Qed.
Theorem cumtrapz_axis_shape_wrong pdf edges k : shp pdf = lens edges -> (k < length edges)%nat -> nth k edges [] <> [] -> (2 <= length edges)%nat ->
  exists r, cumtrapz pdf edges true (Some k) = Ok r /\ shp r <> shp pdf.
Proof.
  intros H Hk He H2. destruct (cumtrapz_axis_padded pdf edges k H Hk He) as [r [Hr Hs]]. exists r. split; [exact Hr|]. rewrite Hs. intros E.
  set (j := if Nat.eqb k 0 then 1%nat else 0%nat). assert (Hj : j <> k /\ (j < length (shp pdf))%nat).
  { rewrite H, lens_length. unfold j. destruct (Nat.eqb_spec k 0); lia. }
  pose proof (f_equal (fun l => nth j l 0%nat) E) as En. cbv beta in En. rewrite set_nth_other in En by (destruct Hj; congruence).
  rewrite (nth_indep _ 0%nat 1%nat) in En by (rewrite map_length; apply Hj). rewrite map_nth in En. lia.
Qed.

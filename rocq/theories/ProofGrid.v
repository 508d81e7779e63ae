(** Proofs about grids of points, density_grid and from_hist. *)
From Coq Require Import ZArith FunctionalExtensionality.
From Verif Require Import Base ModelLinAlg ModelKernels ModelKDE ModelExtrema ModelInterp ModelResample ModelUtils ModelNd ModelGrid SpecUtils SpecKDE SpecNd ProofKDE ProofUtils ProofUtils2 ProofUtils3 ProofUtils4 ProofNested ProofNd ProofNd2.
Open Scope R_scope.
Notation length := List.length.

(* ------------------------------------------------------------ flattening and reshaping *)
Lemma flat_map_block_length {A B} (g : A -> list B) l m : (forall a, In a l -> length (g a) = m) -> length (flat_map g l) = (length l * m)%nat.
Proof.
  induction l as [|a l IH]; intros H; [reflexivity|]. cbn [flat_map length]. rewrite app_length, IH by (intros b Hb; apply H; right; exact Hb).
  rewrite (H a (or_introl eq_refl)). cbn. lia.
Qed.
Lemma flat_map_block_nth {A B} (g : A -> list B) l m i k d d' : (forall a, In a l -> length (g a) = m) -> (i < length l)%nat -> (k < m)%nat ->
  nth (i * m + k) (flat_map g l) d = nth k (g (nth i l d')) d.
Proof.
  revert i. induction l as [|a l IH]; intros i H Hi Hk; cbn [length] in Hi; [lia|]. cbn [flat_map]. pose proof (H a (or_introl eq_refl)) as Ha. destruct i as [|i].
  - cbn [Nat.mul Nat.add nth]. apply app_nth1. rewrite Ha. exact Hk.
  - rewrite app_nth2 by (rewrite Ha; cbn; lia). cbn [nth]. rewrite Ha. replace (S i * m + k - m)%nat with (i * m + k)%nat by (cbn; lia). apply IH; [intros b Hb; apply H; right; exact Hb|lia|exact Hk].
Qed.
Lemma all_idx_length sh : length (all_idx sh) = size_of_shape sh.
Proof.
  induction sh as [|n sh IH]; [reflexivity|]. cbn [all_idx size_of_shape fold_right]. rewrite (flat_map_block_length _ _ (size_of_shape sh)) by (intros a _; rewrite map_length; exact IH).
  rewrite seq_length. reflexivity.
Qed.
Lemma ravel_lt sh idx : inb sh idx -> (ravel sh idx < size_of_shape sh)%nat.
Proof.
  induction 1 as [|i n idx sh Hi _ IH]; cbn [ravel size_of_shape fold_right]; [lia|]. change (fold_right Nat.mul 1%nat sh) with (size_of_shape sh).
  apply Nat.lt_le_trans with (i * size_of_shape sh + size_of_shape sh)%nat; [lia|]. replace (i * size_of_shape sh + size_of_shape sh)%nat with (S i * size_of_shape sh)%nat by (cbn; lia).
  apply Nat.mul_le_mono_r. lia.
Qed.
Lemma all_idx_nth sh idx : inb sh idx -> nth (ravel sh idx) (all_idx sh) [] = idx.
Proof.
  intros H. induction H as [|i n idx sh Hi Hr IH]; [reflexivity|]. cbn [ravel all_idx].
  rewrite (flat_map_block_nth _ _ (size_of_shape sh) i (ravel sh idx) [] 0%nat).
  - rewrite seq_nth by exact Hi. cbn [Nat.add]. set (g := cons i). rewrite (nth_indep _ [] (g [])) by (rewrite map_length, all_idx_length; apply ravel_lt, Hr).
    rewrite (map_nth g), IH. reflexivity.
  - intros a _. rewrite map_length. apply all_idx_length.
  - rewrite seq_length. exact Hi.
  - apply ravel_lt, Hr.
Qed.
Lemma all_idx_NoDup sh : NoDup (all_idx sh).
Proof.
  induction sh as [|n sh IH]; cbn [all_idx]; [constructor; [intros []|constructor]|].
  generalize (seq_NoDup n 0). generalize (seq 0 n). intros l. induction l as [|i l IHl]; intros Hl; [constructor|]. inversion Hl as [|? ? Hni Hl']; subst.
  cbn [flat_map]. assert (Hd : forall x, In x (map (cons i) (all_idx sh)) -> ~ In x (flat_map (fun i => map (cons i) (all_idx sh)) l)).
  { intros x Hx Hf. apply in_map_iff in Hx. destruct Hx as [r [<- _]]. apply in_flat_map in Hf. destruct Hf as [j [Hj Hf]]. apply in_map_iff in Hf. destruct Hf as [r' [E _]]. injection E as -> _. contradiction. }
  specialize (IHl Hl'). revert Hd. assert (Hm : NoDup (map (cons i) (all_idx sh))).
  { clear - IH. induction IH as [|x l Hx _ IHl]; cbn; constructor; [|exact IHl]. intros Hin. apply in_map_iff in Hin. destruct Hin as [y [E Hy]]. injection E as ->. contradiction. }
  clear - Hm IHl. induction Hm as [|x m Hx _ IHm]; intros Hd; cbn [app]; [exact IHl|]. constructor.
  - rewrite in_app_iff. intros [Hin|Hin]; [contradiction|]. apply (Hd x (or_introl eq_refl)), Hin.
  - apply IHm. intros y Hy. apply Hd. right. exact Hy.
Qed.
Lemma flatten_length a : length (flatten_nd a) = size_of_shape (shp a).
Proof. unfold flatten_nd. rewrite map_length. apply all_idx_length. Qed.
Lemma flatten_nth a idx : inb (shp a) idx -> vget (flatten_nd a) (ravel (shp a) idx) = at_ a idx.
Proof.
  intros H. unfold vget, flatten_nd. rewrite (nth_indep _ 0 (at_ a [])) by (rewrite map_length, all_idx_length; apply ravel_lt, H). rewrite map_nth, all_idx_nth by exact H. reflexivity.
Qed.

(* ------------------------------------------------------------ the grid of points *)

Lemma mesh_columns_length points : length (mesh_columns points) = size_of_shape (lens points).
Proof. unfold mesh_columns. rewrite map_length, seq_length. reflexivity. Qed.
Lemma mesh_columns_nth points idx dflt : inb (lens points) idx -> nth (ravel (lens points) idx) (mesh_columns points) dflt = grid_point points idx.
Proof.
  intros H. unfold mesh_columns. match goal with |- context [map ?f (seq 0 ?n)] => set (g := f) end. fold (lens points).
  rewrite (nth_indep _ dflt (g 0%nat)) by (rewrite map_length, seq_length; apply ravel_lt, H). rewrite (map_nth g), seq_nth by (apply ravel_lt, H). rewrite Nat.add_0_l. unfold g.
  apply functional_extensionality. intros d. exact (flatten_nth (mesh points d) idx H).
Qed.
Lemma mesh_columns_map points : mesh_columns points = map (grid_point points) (all_idx (lens points)).
Proof.
  apply (nth_ext _ _ (grid_point points []) (grid_point points [])).
  - rewrite mesh_columns_length, map_length, all_idx_length. reflexivity.
  - intros n Hn. rewrite mesh_columns_length in Hn. rewrite map_nth.
    assert (Hin : In (nth n (all_idx (lens points)) []) (all_idx (lens points))) by (apply nth_In; rewrite all_idx_length; exact Hn).
    apply inb_all_idx in Hin. set (idx := nth n (all_idx (lens points)) []) in *.
    assert (E : n = ravel (lens points) idx).
    { apply (NoDup_nth (all_idx (lens points)) []); [apply all_idx_NoDup|rewrite all_idx_length; exact Hn|rewrite all_idx_length; apply ravel_lt, Hin|].
      rewrite all_idx_nth by exact Hin. reflexivity. }
    rewrite E at 1. apply mesh_columns_nth, Hin.
Qed.

(** C26 *)
Theorem density_grid_pointwise K (prob : bool) refl p points f : kde_density K prob (length points) refl p = Ok f ->
  exists a, density_grid K prob refl p points = Ok a /\ shp a = map (@List.length R) points
  /\ forall idx, inb (shp a) idx -> at_ a idx = f (fun d => nth (nth d idx 0%nat) (nth d points []) 0).
Proof.
  intros Hf. unfold density_grid. rewrite Hf. cbn [bind]. eexists. split; [reflexivity|]. cbn [reshape_nd shp at_]. split; [reflexivity|].
  intros idx Hi. unfold vget. fold (lens points) in *. rewrite (nth_indep _ 0 (f (fun _ => 0))) by (rewrite map_length, mesh_columns_length; apply ravel_lt, Hi).
  rewrite map_nth, mesh_columns_nth by exact Hi. reflexivity.
Qed.
Theorem density_grid_error K (prob : bool) refl p points e : kde_density K prob (length points) refl p = Err e -> density_grid K prob refl p points = Err e.
Proof. intros H. unfold density_grid. rewrite H. reflexivity. Qed.

(* ------------------------------------------------------------ from_hist *)
Lemma bin_centers_spec b h : uniform_step b h -> (3 <= length b)%nat ->
  exists cs, bin_centers b = Ok (h, cs) /\ length cs = (length b - 1)%nat /\ forall i, (S i < length b)%nat -> nth i cs 0 = (nth i b 0 + nth (S i) b 0) / 2.
Proof.
  intros Hu Hl. destruct b as [|b0 [|b1 [|b2 b]]]; cbn [length] in Hl; try lia. unfold bin_centers.
  assert (E : b2 - b1 = h) by (pose proof (Hu 1%nat ltac:(cbn; lia)) as H1; cbn in H1; lra).
  set (l := b0 :: b1 :: b2 :: b) in *. rewrite E. eexists. split; [reflexivity|].
  assert (Hrl : length (removelast l) = (length l - 1)%nat).
  { assert (Hne : l <> []) by discriminate. pose proof (app_removelast_last 0 Hne) as Hal. apply (f_equal (@length R)) in Hal. rewrite app_length in Hal. cbn [length] in Hal. lia. }
  split; [rewrite map_length; exact Hrl|]. intros i Hi.
  set (g := fun x : R => x + / 2 * h). rewrite (nth_indep _ 0 (g 0)) by (rewrite map_length, Hrl; lia). rewrite (map_nth g).
  assert (Hn : nth i (removelast l) 0 = nth i l 0).
  { assert (Hne : l <> []) by discriminate. rewrite (app_removelast_last 0 Hne) at 2. rewrite app_nth1 by (rewrite Hrl; lia). reflexivity. }
  rewrite Hn. unfold g. pose proof (Hu i Hi). lra.
Qed.

Lemma fdiv_pos x y : 0 < y -> fdiv x y = Fin (x / y).
Proof. intros H. unfold fdiv. destruct (Reqb_spec y 0); [lra|reflexivity]. Qed.
Lemma hist_weights_ok n l T : length l = n -> (forall h, In h l -> 0 <= h) -> 0 < lsum l -> 0 < T ->
  check_weights n (WArr (map (fun h => fdiv h T) l)) = Ok (Some (map (fun h => h / T) l)).
Proof.
  intros Hl Hp Hs HT. replace (map (fun h => fdiv h T) l) with (map (fun h => Fin (h / T)) l) by (apply map_ext; intros h; rewrite fdiv_pos by exact HT; reflexivity).
  unfold check_weights. rewrite map_length, Hl, Nat.eqb_refl. cbn [negb].
  assert (Hex : existsb f_nonzero (map (fun h => Fin (h / T)) l) = true).
  { destruct (existsb f_nonzero (map (fun h => Fin (h / T)) l)) eqn:E; [reflexivity|]. exfalso.
    assert (Hz : forall h, In h l -> h = 0).
    { intros h Hh. destruct (Req_dec h 0) as [|Hne]; [assumption|]. exfalso. assert (Ht : existsb f_nonzero (map (fun h => Fin (h / T)) l) = true).
      { apply existsb_exists. exists (Fin (h / T)). split; [apply (in_map (fun h => Fin (h / T))), Hh|]. cbn. destruct (Reqb_spec (h / T) 0) as [Z|]; [|reflexivity].
        exfalso. apply Hne. replace h with (h / T * T) by (field; lra). rewrite Z. ring. }
      congruence. }
    assert (lsum l = 0). { clear - Hz. induction l as [|h l IH]; [reflexivity|]. cbn [lsum]. rewrite (Hz h (or_introl eq_refl)), IH by (intros k Hk; apply Hz; right; exact Hk). ring. }
    lra. }
  rewrite Hex. cbn [negb].
  replace (existsb (fun x => orb (negb (f_isfinite x)) (f_neg x)) (map (fun h => Fin (h / T)) l)) with false.
  - rewrite map_map. reflexivity.
  - symmetry. apply existsb_false_all. intros x Hx. apply in_map_iff in Hx. destruct Hx as [h [<- Hh]]. cbn. destruct (Rltb_spec (h / T) 0) as [Hn|]; [|reflexivity].
    exfalso. assert (0 <= h / T); [|lra]. apply Rmult_le_pos; [apply Hp, Hh|]. left. apply Rinv_0_lt_compat, HT.
Qed.

Lemma fold_mult_acc {A} (f : A -> R) l : forall acc, fold_left (fun acc c => acc * f c) l acc = acc * product (map f l).
Proof. unfold product. induction l as [|a l IH]; intros acc; cbn; [ring|]. rewrite IH. ring. Qed.

Lemma bin_centers_all bins hs : Forall2 (fun b h => (3 <= length b)%nat /\ uniform_step b h) bins hs ->
  exists cs, mapM bin_centers bins = Ok cs /\ map fst cs = hs /\ lens (map snd cs) = masses bins
  /\ forall idx, inb (masses bins) idx -> grid_point (map snd cs) idx = bin_center bins idx.
Proof.
  induction 1 as [|b h bins hs [Hl Hu] _ IH].
  - exists []. split; [reflexivity|]. split; [reflexivity|]. split; [reflexivity|]. intros idx Hi. inversion Hi. apply functional_extensionality. intros d. unfold grid_point, bin_center. destruct d; cbn; lra.
  - destruct IH as [cs [E1 [E2 [E3 E4]]]]. destruct (bin_centers_spec b h Hu Hl) as [c [Ec [Hcl Hcn]]]. exists ((h, c) :: cs). cbn [mapM]. rewrite Ec. cbn [bind]. rewrite E1. cbn [bind].
    split; [reflexivity|]. split; [cbn; rewrite E2; reflexivity|]. split; [cbn; unfold lens, masses in E3; rewrite E3, Hcl; reflexivity|].
    intros idx Hi. unfold masses in Hi. cbn [map] in Hi. inversion Hi as [|i m idx' sh Him Hi']; subst. apply functional_extensionality. intros d. unfold grid_point, bin_center. cbn [map snd].
    destruct d as [|d]; cbn [nth].
    + apply Hcn. lia.
    + pose proof (f_equal (fun g : pt => g d) (E4 idx' Hi')) as Hd. unfold grid_point, bin_center in Hd. exact Hd.
Qed.

Lemma product_pos hs : (forall h, In h hs -> 0 < h) -> 0 < product hs.
Proof. unfold product. induction hs as [|h hs IH]; intros H; cbn; [lra|]. apply Rmult_lt_0_compat; [apply H; left; reflexivity|]. apply IH. intros k Hk. apply H. right. exact Hk. Qed.
Lemma kde_init_fields n data w b diag resc d cova neffa refl ow K : check_weights (length data) w = Ok ow ->
  kde_init n data w b diag resc d cova neffa refl = Ok K -> kd_data K = data /\ kd_weights K = ow /\ kd_ndim K = n.
Proof.
  intros Hw H. unfold kde_init in H. destruct (Nat.eqb (length data) 0); [discriminate H|]. rewrite Hw in H. cbn [bind] in H.
  destruct (set_bandwidth _ _ _ _ _) as [bw|]; [|discriminate H]. cbn [bind] in H. injection H as <-. repeat split.
Qed.
Lemma sumf_div {A} (f : A -> R) T l : sumf (fun a => f a / T) l = sumf f l / T.
Proof. induction l as [|a l IH]; [unfold sumf; cbn; lra|]. rewrite !sumf_cons, IH. unfold Rdiv. ring. Qed.
Lemma combine_map {A B C} (f : A -> B) (g : A -> C) l : combine (map f l) (map g l) = map (fun a => (f a, g a)) l.
Proof. induction l as [|a l IH]; [reflexivity|]. cbn. rewrite IH. reflexivity. Qed.
Lemma size_ne sh : (forall n, In n sh -> (0 < n)%nat) -> (0 < size_of_shape sh)%nat.
Proof. induction sh as [|n sh IH]; intros H; cbn [size_of_shape fold_right]; [lia|]. apply Nat.mul_pos_pos; [apply H; left; reflexivity|]. apply IH. intros k Hk. apply H. right. exact Hk. Qed.

(** C30 *)
Lemma good_forget bins hs : good_bins bins hs -> Forall2 (fun b h => (3 <= length b)%nat /\ uniform_step b h) bins hs /\ 0 < product hs.
Proof. unfold product. induction 1 as [|b h bins hs [H1 [H2 H3]] _ [IH1 IH2]]; cbn; split; try constructor; try lra; auto. apply Rmult_lt_0_compat; assumption. Qed.
Lemma from_hist_nd_prep bins hs hist : good_bins bins hs -> shp hist = map (fun b => (List.length b - 1)%nat) bins ->
  (forall idx, inb (shp hist) idx -> 0 <= at_ hist idx) -> 0 < sumf (at_ hist) (all_idx (shp hist)) ->
  exists cs, mapM bin_centers bins = Ok cs /\ map fst cs = hs
  /\ mesh_columns (map snd cs) = map (bin_center bins) (all_idx (shp hist))
  /\ check_weights (length (mesh_columns (map snd cs))) (WArr (map (fun h => fdiv h (asum (shp hist) (at_ hist) * fold_left (fun acc c => acc * fst c) cs 1)) (flatten_nd hist)))
     = Ok (Some (map (fun idx => at_ hist idx / (sumf (at_ hist) (all_idx (shp hist)) * product hs)) (all_idx (shp hist)))).
Proof.
  intros Hb Hs Hp Ht. destruct (good_forget _ _ Hb) as [Hb' HV]. destruct (bin_centers_all bins hs Hb') as [cs [E1 [E2 [E3 E4]]]]. exists cs. split; [exact E1|]. split; [exact E2|].
  assert (Em : mesh_columns (map snd cs) = map (bin_center bins) (all_idx (shp hist))).
  { rewrite mesh_columns_map, E3, Hs. apply map_ext_in. intros idx Hin. apply E4. apply inb_all_idx in Hin. exact Hin. }
  split; [exact Em|]. rewrite fold_mult_acc, E2, Rmult_1_l, asum_list. unfold flatten_nd. rewrite hist_weights_ok.
  - rewrite map_map. reflexivity.
  - rewrite Em, !map_length. reflexivity.
  - intros h Hh. apply in_map_iff in Hh. destruct Hh as [idx [<- Hin]]. apply Hp, inb_all_idx, Hin.
  - exact Ht.
  - apply Rmult_lt_0_compat; assumption.
Qed.
Theorem from_hist_nd_data bins hs hist bw diag resc d cova neffa refl K : good_bins bins hs -> shp hist = map (fun b => (List.length b - 1)%nat) bins ->
  (forall idx, inb (shp hist) idx -> 0 <= at_ hist idx) -> 0 < sumf (at_ hist) (all_idx (shp hist)) ->
  from_hist_nd bins hist bw diag resc d cova neffa refl = Ok K ->
  exists ws, kd_weights K = Some ws /\ length ws = length (kd_data K)
  /\ combine (kd_data K) ws = map (fun idx => (bin_center bins idx, at_ hist idx / (sumf (at_ hist) (all_idx (shp hist)) * product hs))) (all_idx (shp hist))
  /\ lsum ws * product hs = 1.
Proof.
  intros Hb Hs Hp Ht HK. destruct (from_hist_nd_prep bins hs hist Hb Hs Hp Ht) as [cs [E1 [E2 [Em Ew]]]]. unfold from_hist_nd in HK. rewrite E1 in HK. cbn [bind] in HK. cbv zeta in HK.
  destruct (kde_init_fields _ _ _ _ _ _ _ _ _ _ _ _ Ew HK) as [Hd [Hw _]]. eexists. split; [exact Hw|]. rewrite Hd, Em. split; [rewrite !map_length; reflexivity|]. split; [apply combine_map|].
  change (lsum (map ?f ?l)) with (sumf f l). rewrite sumf_div. pose proof (proj2 (good_forget _ _ Hb)). field. lra.
Qed.
Theorem from_hist_nd_default bins hs hist diag resc d cova neffa refl : good_bins bins hs -> (2 <= length bins)%nat -> shp hist = map (fun b => (List.length b - 1)%nat) bins ->
  (forall idx, inb (shp hist) idx -> 0 <= at_ hist idx) -> 0 < sumf (at_ hist) (all_idx (shp hist)) ->
  exists K, from_hist_nd bins hist None diag resc d cova neffa refl = Ok K
  /\ from_hist_nd bins hist (Some (BwSeq (map BNum hs))) diag resc d cova neffa refl = Ok K.
Proof.
  intros Hb H2 Hs Hp Ht. destruct (from_hist_nd_prep bins hs hist Hb Hs Hp Ht) as [cs [E1 [E2 [Em Ew]]]]. unfold from_hist_nd. rewrite E1. cbn [bind]. cbv zeta.
  assert (Hlen : length hs = length bins) by (clear - Hb; induction Hb; cbn; congruence).
  replace (map (fun c => BNum (fst c)) cs) with (map BNum hs) by (rewrite <- E2, map_map; reflexivity).
  unfold kde_init. destruct (Nat.eqb_spec (length (mesh_columns (map snd cs))) 0) as [E0|_].
  { exfalso. rewrite Em, map_length, all_idx_length in E0. enough (0 < size_of_shape (shp hist))%nat by lia. apply size_ne. intros n Hn. rewrite Hs in Hn. apply in_map_iff in Hn. destruct Hn as [b [<- Hin]].
    clear - Hb Hin. induction Hb as [|b' h bins hs [H _] _ IH]; [destruct Hin|]; destruct Hin as [<-|Hin]; [lia|apply IH, Hin]. }
  rewrite Ew. cbn [bind]. unfold set_bandwidth. rewrite map_length, Hlen. destruct (Nat.eqb_spec (length bins) 1); [lia|]. rewrite Nat.eqb_refl.
  assert (Em' : forall neff n, mapM (compute_bandwidth neff n) (map BNum hs) = Ok hs) by (intros neff n1; clear; induction hs as [|h hs IH]; cbn; [reflexivity|]; rewrite IH; reflexivity).
  rewrite Em'. cbn [bind]. eexists. split; reflexivity.
Qed.
(** A list with one vector of bins cannot use the default bandwidth. *)
Theorem from_hist_listed_1d b h hist diag resc d cova neffa refl : (3 <= length b)%nat -> uniform_step b h -> 0 < h -> shp hist = [(List.length b - 1)%nat] ->
  (forall idx, inb (shp hist) idx -> 0 <= at_ hist idx) -> 0 < sumf (at_ hist) (all_idx (shp hist)) ->
  from_hist_nd [b] hist None diag resc d cova neffa refl = Err ValueError.
Proof.
  intros Hl Hu Hh Hs Hp Ht. assert (Hb : good_bins [b] [h]) by (constructor; [repeat split; assumption|constructor]).
  destruct (from_hist_nd_prep [b] [h] hist Hb Hs Hp Ht) as [cs [E1 [E2 [Em Ew]]]]. unfold from_hist_nd. rewrite E1. cbn [bind]. cbv zeta. unfold kde_init.
  destruct (Nat.eqb_spec (length (mesh_columns (map snd cs))) 0) as [_|_]; [reflexivity|]. rewrite Ew. cbn [bind]. unfold set_bandwidth. rewrite map_length, <- (map_length fst), E2. reflexivity.
Qed.

Theorem from_hist_1d_data b h hist bw diag resc d cova neffa refl K : (3 <= length b)%nat -> uniform_step b h -> 0 < h -> length hist = (length b - 1)%nat ->
  (forall x, In x hist -> 0 <= x) -> 0 < lsum hist ->
  from_hist_1d b hist bw diag resc d cova neffa refl = Ok K ->
  exists ws, kd_weights K = Some ws /\ length (kd_data K) = length hist /\ length ws = length hist
  /\ (forall i, (i < length hist)%nat -> nth i (kd_data K) (fun _ => 0) 0%nat = (nth i b 0 + nth (S i) b 0) / 2 /\ nth i ws 0 = nth i hist 0 / (lsum hist * h))
  /\ lsum ws * h = 1.
Proof.
  intros Hl Hu Hh Hn Hp Ht HK. destruct (bin_centers_spec b h Hu Hl) as [cs [Ec [Hcl Hcn]]]. unfold from_hist_1d in HK. rewrite Ec in HK. cbn [bind fst snd] in HK.
  assert (HT : 0 < lsum hist * h) by (apply Rmult_lt_0_compat; assumption).
  match type of HK with kde_init 1 ?data ?w _ _ _ _ _ _ _ = _ => pose proof (hist_weights_ok (length data) hist (lsum hist * h) ltac:(rewrite map_length; congruence) Hp Ht HT) as Ew end.
  destruct (kde_init_fields _ _ _ _ _ _ _ _ _ _ _ _ Ew HK) as [Hd [Hw _]]. eexists. split; [exact Hw|]. rewrite Hd, !map_length. split; [congruence|]. split; [reflexivity|]. split.
  - intros i Hi. split.
    + set (g := fun x : R => ((fun _ => x) : pt)). rewrite (nth_indep _ (fun _ => 0) (g 0)) by (rewrite map_length; lia). rewrite (map_nth g). unfold g. apply Hcn. lia.
    + set (g := fun x : R => x / (lsum hist * h)). rewrite (nth_indep _ 0 (g 0)) by (rewrite map_length; exact Hi). rewrite (map_nth g). reflexivity.
  - change (lsum (map ?f ?l)) with (sumf f l). rewrite (sumf_div (fun x => x)). replace (sumf (fun x => x) hist) with (lsum hist) by (unfold sumf; rewrite map_id; reflexivity). field. lra.
Qed.
Theorem from_hist_1d_default b h hist diag resc d cova neffa refl : (3 <= length b)%nat -> uniform_step b h -> 0 < h -> length hist = (length b - 1)%nat ->
  (forall x, In x hist -> 0 <= x) -> 0 < lsum hist ->
  exists K, from_hist_1d b hist None diag resc d cova neffa refl = Ok K /\ from_hist_1d b hist (Some (BwAtom (BNum h))) diag resc d cova neffa refl = Ok K.
Proof.
  intros Hl Hu Hh Hn Hp Ht. destruct (bin_centers_spec b h Hu Hl) as [cs [Ec [Hcl Hcn]]]. unfold from_hist_1d. rewrite Ec. cbn [bind fst snd].
  assert (HT : 0 < lsum hist * h) by (apply Rmult_lt_0_compat; assumption). unfold kde_init. rewrite map_length, Hcl. destruct (Nat.eqb_spec (length b - 1) 0); [lia|].
  rewrite hist_weights_ok by assumption. cbn [bind set_bandwidth compute_bandwidth]. eexists. split; reflexivity.
Qed.
(** C31 *)
Theorem from_hist_short_1d bins hist bw diag resc d cova neffa refl : (length bins < 3)%nat -> from_hist_1d bins hist bw diag resc d cova neffa refl = Err IndexError.
Proof. intros H. unfold from_hist_1d. destruct bins as [|a [|b [|c bins]]]; cbn in H; try reflexivity. lia. Qed.
Theorem from_hist_short_nd bins hist bw diag resc d cova neffa refl : (exists b, In b bins /\ (length b < 3)%nat) -> from_hist_nd bins hist bw diag resc d cova neffa refl = Err IndexError.
Proof.
  intros [b [Hb Hl]]. unfold from_hist_nd. replace (mapM bin_centers bins) with (@Err (list (R * list R)) IndexError); [reflexivity|]. symmetry. induction bins as [|a bins IH]; [destruct Hb|].
  cbn [mapM]. destruct Hb as [->|Hb].
  - destruct b as [|x [|y [|z b]]]; cbn in Hl; try reflexivity. lia.
  - rewrite IH by exact Hb. destruct (bin_centers a) as [c|e] eqn:E; [reflexivity|]. cbn [bind]. unfold bin_centers in E. destruct a as [|x [|y [|z a]]]; try (injection E as <-; reflexivity). discriminate E.
Qed.
(** The point of bin i, for any edges: half of the width of the second bin above the left edge. *)
Theorem from_hist_1d_points b hist bw diag resc d cova neffa refl K : from_hist_1d b hist bw diag resc d cova neffa refl = Ok K ->
  length (kd_data K) = (length b - 1)%nat /\ forall i, (S i < length b)%nat -> nth i (kd_data K) (fun _ => 0) 0%nat = nth i b 0 + (nth 2 b 0 - nth 1 b 0) / 2.
Proof.
  intros HK. unfold from_hist_1d in HK. destruct b as [|b0 [|b1 [|b2 b]]]; try discriminate HK. cbn [bin_centers bind fst snd] in HK. set (l := b0 :: b1 :: b2 :: b) in *.
  assert (Hd : kd_data K = map (fun x => ((fun _ => x) : pt)) (map (fun x => x + / 2 * (b2 - b1)) (removelast l))).
  { unfold kde_init in HK. destruct (Nat.eqb _ 0); [discriminate HK|]. destruct (check_weights _ _); [|discriminate HK]. cbn [bind] in HK. destruct (set_bandwidth _ _ _ _ _); [|discriminate HK]. cbn [bind] in HK. injection HK as <-. reflexivity. }
  assert (Hne : l <> []) by discriminate. assert (Hrl : length (removelast l) = (length l - 1)%nat).
  { pose proof (app_removelast_last 0 Hne) as Hal. apply (f_equal (@length R)) in Hal. rewrite app_length in Hal. cbn [length] in Hal. lia. }
  rewrite Hd, map_map, map_length. split; [exact Hrl|]. intros i Hi. set (g := fun x : R => ((fun _ => x + / 2 * (b2 - b1)) : pt)).
  rewrite (nth_indep _ (fun _ => 0) (g 0)) by (rewrite map_length, Hrl; lia). rewrite (map_nth g). unfold g.
  assert (Hn : nth i (removelast l) 0 = nth i l 0) by (rewrite (app_removelast_last 0 Hne) at 2; rewrite app_nth1 by (rewrite Hrl; lia); reflexivity).
  rewrite Hn. change (nth 2 l 0) with b2. change (nth 1 l 0) with b1. lra.
Qed.
Theorem all_idx_spec sh : NoDup (all_idx sh) /\ forall idx, In idx (all_idx sh) <-> inb sh idx.
Proof. split; [apply all_idx_NoDup|apply inb_all_idx]. Qed.

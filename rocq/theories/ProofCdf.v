(** Proofs about KDE.cdf. *)
From Coq Require Import ZArith FunctionalExtensionality.
From Verif Require Import Base ModelLinAlg ModelKernels ModelKDE ModelExtrema ModelInterp ModelResample ModelUtils ModelNd ModelGrid SpecUtils SpecKDE SpecNd ProofInterp ProofKDE ProofUtils ProofUtils2 ProofUtils3 ProofUtils4 ProofNested ProofNd ProofNd2 ProofGrid.
Open Scope R_scope.
Notation length := List.length.

(** Nested interpolation. *)
Fixpoint nint (grids : list (list R)) (f : list nat -> R) (x : list R) : R :=
  match grids, x with
  | g :: gs, t :: x' => interp (vget g) (fun i => nint gs (fun idx => f (i :: idx)) x') (length g - 1) t
  | _, _ => f []
  end.
Lemma rgi_nested grids : forall a x, length x = length grids -> rgi grids a x = nint grids (at_ a) x.
Proof.
  unfold rgi. enough (G : forall f x, length x = length grids -> asum (repeat 2%nat (length grids)) (fun bits => f (add_idx (rgi_cells grids x) bits) * rgi_weight grids x bits) = nint grids f x) by (intros a x; apply G).
  induction grids as [|g gs IH]; intros f [|t x] H; cbn [length] in H; try discriminate H.
  - cbn. ring.
  - cbn [length repeat asum rsum rgi_cells add_idx rgi_weight nint]. cbn [Nat.eqb]. unfold interp. set (i := rgi_cell g t). change (interp_bin (vget g) (length g - 1) t) with i. rewrite Nat.add_0_r, Nat.add_1_r.
    rewrite <- (IH (fun idx => f (i :: idx)) x), <- (IH (fun idx => f (S i :: idx)) x) by lia.
    set (y := (t - vget g i) / (vget g (S i) - vget g i)).
    rewrite (asum_ext _ (fun idx => f (i :: add_idx (rgi_cells gs x) idx) * ((1 - y) * rgi_weight gs x idx)) (fun idx => (1 - y) * (f (i :: add_idx (rgi_cells gs x) idx) * rgi_weight gs x idx))) by (intros; ring).
    rewrite (asum_ext _ (fun idx => f (S i :: add_idx (rgi_cells gs x) idx) * (y * rgi_weight gs x idx)) (fun idx => y * (f (S i :: add_idx (rgi_cells gs x) idx) * rgi_weight gs x idx))) by (intros; ring).
    rewrite !asum_scal. unfold y, Rdiv. ring.
Qed.
Lemma interp_le x y z m v : (1 <= m)%nat -> increasing x m -> x O <= v <= x m -> (forall i, (i <= m)%nat -> y i <= z i) -> interp x y m v <= interp x z m v.
Proof.
  intros Hm Hx Hv H. destruct (interp_bin_spec x m v Hm (incr_nondecr _ _ Hx) Hv) as [Hlo Hin]. unfold interp. set (lo := interp_bin x m v) in *.
  pose proof (Hx lo (S lo) ltac:(lia) ltac:(lia)) as Hd. set (dx := x (S lo) - x lo) in *. assert (Hdx : 0 < dx) by (unfold dx; lra).
  set (t := (v - x lo) / dx). assert (Ht : 0 <= t <= 1).
  { unfold t. split; [apply Rmult_le_pos; [lra|left; apply Rinv_0_lt_compat; lra]|]. apply Rmult_le_reg_r with dx; [assumption|]. unfold Rdiv. rewrite Rmult_assoc, Rinv_l by lra. unfold dx; lra. }
  replace ((y (S lo) - y lo) / dx * (v - x lo)) with ((y (S lo) - y lo) * t) by (unfold t; field; lra).
  replace ((z (S lo) - z lo) / dx * (v - x lo)) with ((z (S lo) - z lo) * t) by (unfold t; field; lra).
  pose proof (H lo ltac:(lia)) as A. pose proof (H (S lo) ltac:(lia)) as B.
  replace (y lo + (y (S lo) - y lo) * t) with ((1 - t) * y lo + t * y (S lo)) by ring. replace (z lo + (z (S lo) - z lo) * t) with ((1 - t) * z lo + t * z (S lo)) by ring.
  apply Rplus_le_compat; apply Rmult_le_compat_l; lra.
Qed.
Lemma grid_incr g : (forall i j, (i < j < length g)%nat -> nth i g 0 < nth j g 0) -> (2 <= length g)%nat -> increasing (vget g) (length g - 1).
Proof. intros H Hl i j Hij Hj. apply H. lia. Qed.
Lemma is_grid_tail g gs : is_grid (g :: gs) -> is_grid gs.
Proof. intros H x Hx. apply H. right. exact Hx. Qed.
Lemma is_grid_head g gs : is_grid (g :: gs) -> (1 <= length g - 1)%nat /\ increasing (vget g) (length g - 1).
Proof. intros H. destruct (H g (or_introl eq_refl)) as [H1 H2]. split; [lia|]. apply grid_incr; assumption. Qed.

Lemma nint_le grids : is_grid grids -> forall f g x, in_grid grids x -> (forall idx, inb (lens grids) idx -> f idx <= g idx) -> nint grids f x <= nint grids g x.
Proof.
  induction grids as [|h gs IH]; intros HG f g x Hx H; inversion Hx; subst; cbn [nint]; [apply H; constructor|].
  destruct (is_grid_head h gs HG) as [Hl Hi]. apply interp_le; try assumption. intros i Him. apply IH; [apply (is_grid_tail h), HG|assumption|]. intros idx Hidx. apply H. constructor; [lia|exact Hidx].
Qed.
Lemma nint_ext grids f g x : is_grid grids -> in_grid grids x -> (forall idx, inb (lens grids) idx -> f idx = g idx) -> nint grids f x = nint grids g x.
Proof. intros HG Hx H. apply Rle_antisym; apply nint_le; try assumption; intros idx Hi; rewrite H by exact Hi; lra. Qed.
Lemma le_idx_refl idx : le_idx idx idx.
Proof. unfold le_idx. induction idx; constructor; [lia|assumption]. Qed.
Definition mono_idx (sh : list nat) (f : list nat -> R) : Prop := forall i j, inb sh j -> le_idx i j -> f i <= f j.
Lemma mono_tail n sh f i : (i < n)%nat -> mono_idx (n :: sh) f -> mono_idx sh (fun idx => f (i :: idx)).
Proof. intros Hi H a b Hb Hab. apply H; constructor; try assumption; lia. Qed.
Lemma nint_mono grids : is_grid grids -> forall f x y, in_grid grids x -> in_grid grids y -> Forall2 Rle x y -> mono_idx (lens grids) f -> nint grids f x <= nint grids f y.
Proof.
  induction grids as [|g gs IH]; intros HG f x y Hx Hy Hxy Hf; inversion Hx as [|? t ? x' Ht Hx']; subst; inversion Hy as [|? u ? y' Hu Hy']; subst; cbn [nint]; [lra|].
  inversion Hxy; subst. destruct (is_grid_head g gs HG) as [Hl Hi]. pose proof (is_grid_tail g gs HG) as HG'.
  apply Rle_trans with (interp (vget g) (fun i => nint gs (fun idx => f (i :: idx)) x') (length g - 1) u).
  - apply interp_mono; try assumption; [|apply Ht|apply Hu]. intros i j Hij Hj. apply nint_le; try assumption. intros idx Hidx. apply Hf; constructor; try assumption; try lia. apply le_idx_refl.
  - apply interp_le; try assumption. intros i Him. apply IH; try assumption. apply (mono_tail (length g)); [lia|exact Hf].
Qed.
Lemma node_cons g gs i idx : node (g :: gs) (i :: idx) = nth i g 0 :: node gs idx.
Proof. reflexivity. Qed.
Lemma nint_node grids : is_grid grids -> forall f idx, inb (lens grids) idx -> nint grids f (node grids idx) = f idx.
Proof.
  induction grids as [|g gs IH]; intros HG f idx Hi; inversion Hi as [|i ? idx' ? Hil Hi']; subst; [reflexivity|]. rewrite node_cons. cbn [nint].
  destruct (is_grid_head g gs HG) as [Hl Hinc]. change (nth i g 0) with (vget g i). rewrite interp_knot by (try assumption; lia). apply (IH (is_grid_tail g gs HG) (fun idx => f (i :: idx))). exact Hi'.
Qed.
Lemma node_in_grid grids : is_grid grids -> forall idx, inb (lens grids) idx -> in_grid grids (node grids idx).
Proof.
  induction grids as [|g gs IH]; intros HG idx Hi; inversion Hi as [|i ? idx' ? Hil Hi']; subst; [constructor|]. rewrite node_cons. constructor; [|apply IH; [apply (is_grid_tail g), HG|exact Hi']].
  destruct (is_grid_head g gs HG) as [Hl Hinc]. apply incr_nondecr in Hinc. split; [apply (Hinc 0%nat i); lia|apply (Hinc i (length g - 1)%nat); lia].
Qed.
Lemma interp_zero x y m v : (forall i, (i <= m)%nat -> y i = 0) -> (1 <= m)%nat -> increasing x m -> x O <= v <= x m -> interp x y m v = 0.
Proof.
  intros H Hm Hx Hv. destruct (interp_bin_spec x m v Hm (incr_nondecr _ _ Hx) Hv) as [Hlo _]. unfold interp. rewrite !H by lia. unfold Rdiv. ring.
Qed.
Lemma nint_face grids : is_grid grids -> forall f x k, in_grid grids x -> (k < length grids)%nat -> nth k x 0 = nth 0 (nth k grids []) 0 ->
  (forall idx, inb (lens grids) idx -> nth k idx 1%nat = 0%nat -> f idx = 0) -> nint grids f x = 0.
Proof.
  induction grids as [|g gs IH]; intros HG f x k Hx Hk Hz Hf; cbn [length] in Hk; [lia|]. inversion Hx as [|? t ? x' Ht Hx']; subst. cbn [nint].
  destruct (is_grid_head g gs HG) as [Hl Hinc]. pose proof (is_grid_tail g gs HG) as HG'. destruct k as [|k]; cbn [nth] in Hz.
  - subst t. change (nth 0 g 0) with (vget g 0). rewrite interp_knot by (try assumption; lia). rewrite (nint_ext gs _ (fun _ => 0) x' HG' Hx').
    + clear - HG' Hx'. revert x' Hx'. induction gs as [|h gs IH]; intros x' Hx'; inversion Hx'; subst; cbn [nint]; [reflexivity|]. destruct (is_grid_head h gs HG') as [Hl Hinc].
      apply interp_zero; try assumption. intros i Hi. apply IH; [apply (is_grid_tail h), HG'|assumption].
    + intros idx Hidx. apply Hf; [constructor; [lia|exact Hidx]|reflexivity].
  - apply interp_zero; try assumption. intros i Hi. apply (IH HG' (fun idx => f (i :: idx)) x' k); try assumption; [lia|]. intros idx Hidx Hn. apply Hf; [constructor; [lia|exact Hidx]|exact Hn].
Qed.

(* ------------------------------------------------------------ the cdf *)
Lemma ascending_grid grids : is_grid grids -> forallb ascending grids = true.
Proof.
  intros H. apply forallb_forall. intros g Hg. destruct (H g Hg) as [Hl Hi]. unfold ascending. apply forallb_forall. intros w Hw.
  apply (In_nth _ _ 0) in Hw. destruct Hw as [i [Hil <-]]. rewrite diff_length in Hil. change (nth i (diff g) 0) with (vget (diff g) i). rewrite diff_nth by lia.
  pose proof (Hi i (S i) ltac:(lia)). unfold vget. destruct (Rltb_spec 0 (nth (S i) g 0 - nth i g 0)); [reflexivity|lra].
Qed.
Lemma last_inb sh : (forall n, In n sh -> (0 < n)%nat) -> inb sh (map (fun n => (n - 1)%nat) sh).
Proof. unfold inb. induction sh as [|n sh IH]; intros H; cbn; constructor; [specialize (H n (or_introl eq_refl)); lia|]. apply IH. intros k Hk. apply H. right. exact Hk. Qed.
Lemma le_last sh idx : inb sh idx -> le_idx idx (map (fun n => (n - 1)%nat) sh).
Proof. unfold le_idx. induction 1; cbn; constructor; [lia|assumption]. Qed.
Lemma nd_max_mono a : (forall n, In n (shp a) -> (0 < n)%nat) -> mono_idx (shp a) (at_ a) -> nd_max a = at_ a (map (fun n => (n - 1)%nat) (shp a)).
Proof.
  intros Hp Hm. pose proof (last_inb _ Hp) as Hl. unfold nd_max. destruct (flatten_nd a) as [|x r] eqn:E.
  { exfalso. pose proof (flatten_length a) as Hlen. rewrite E in Hlen. cbn in Hlen. pose proof (size_ne _ Hp). lia. }
  destruct (vmax_spec x r) as [Hin Hge]. rewrite <- E in *. apply Rle_antisym.
  - unfold flatten_nd in Hin. apply in_map_iff in Hin. destruct Hin as [idx [<- Hidx]]. apply inb_all_idx in Hidx. apply Hm; [exact Hl|apply le_last, Hidx].
  - apply Hge. unfold flatten_nd. apply in_map, inb_all_idx, Hl.
Qed.
Lemma lens_pos grid : is_grid grid -> forall n, In n (lens grid) -> (0 < n)%nat.
Proof. intros HG n Hn. unfold lens in Hn. apply in_map_iff in Hn. destruct Hn as [g [<- Hg]]. destruct (HG g Hg). lia. Qed.

Lemma cut_inb grid : forall idx i, inb (lens grid) idx -> inb (lens (cut_edges grid idx)) i -> inb (lens grid) i.
Proof.
  unfold inb, lens. induction grid as [|g gs IH]; intros idx i H H'; cbn [map] in H.
  - inversion H; subst. cbn in H'. exact H'.
  - inversion H as [|k ? idx' ? Hk Ht]; subst. cbn [cut_edges map] in H'. inversion H' as [|j ? i' ? Hj Ht']; subst. constructor; [pose proof (firstn_length (S k) g) as Hfl; change (j < length (firstn (S k) g))%nat in Hj; lia|]. apply (IH idx'); assumption.
Qed.
(** C32 *)
Theorem cdf_on_grid K grid f : is_grid grid -> kde_density K true (length grid) None PNone = Ok f -> (forall x, 0 <= f x) ->
  0 < trapezoids grid (fun idx => f (grid_point grid idx)) ->
  exists c, (forall x, length x = length grid -> kde_cdf K grid false false x = Ok (Fin (c x)))
  /\ (forall idx, inb (map (@List.length R) grid) idx ->
        c (node grid idx) = trapezoids (cut_edges grid idx) (fun i => f (grid_point grid i)) / trapezoids grid (fun i => f (grid_point grid i)))
  /\ (forall x, in_grid grid x -> 0 <= c x <= 1)
  /\ (forall x y, in_grid grid x -> in_grid grid y -> Forall2 Rle x y -> c x <= c y)
  /\ (forall x k, in_grid grid x -> (k < length grid)%nat -> nth k x 0 = nth 0 (nth k grid []) 0 -> c x = 0)
  /\ c (map (fun g => nth (List.length g - 1) g 0) grid) = 1.
Proof.
  intros HG Hf Hpos HT. destruct (density_grid_pointwise K true None PNone grid f Hf) as [a [Ha [Hs Hv]]]. change (map (@length R) grid) with (lens grid) in *.
  assert (Hne : forall x, In x grid -> x <> [] /\ incr_list x).
  { intros x Hx. destruct (HG x Hx) as [H1 H2]. split; [intros ->; cbn in H1; lia|]. intros i j Hij Hj. apply H2. lia. }
  assert (Hap : forall idx, inb (shp a) idx -> 0 <= at_ a idx) by (intros idx Hi; rewrite Hv by exact Hi; apply Hpos).
  destruct (cumtrapz_value a grid Hs (fun x Hx => proj1 (Hne x Hx))) as [c [Hc [Hcs [Hcv [Hc0 Hcl]]]]].
  destruct (cumtrapz_monotone a grid Hs Hne Hap) as [c' [Hc' Hcm]]. assert (c' = c) by congruence. subst c'.
  assert (Hcut : forall idx, inb (lens grid) idx -> trapezoids (cut_edges grid idx) (at_ a) = trapezoids (cut_edges grid idx) (fun i => f (grid_point grid i))).
  { intros idx Hi. apply trapezoids_ext. intros i Hi'. rewrite Hv; [reflexivity|]. rewrite Hs. apply (cut_inb grid idx); assumption. }
  assert (Htot : trapezoids grid (at_ a) = trapezoids grid (fun i => f (grid_point grid i))) by (apply trapezoids_ext; intros i Hi; rewrite Hv; [reflexivity|rewrite Hs; exact Hi]).
  assert (Hmono : mono_idx (shp c) (at_ c)) by (intros i j Hj Hij; rewrite Hcs in Hj; apply (Hcm i j Hj Hij)).
  assert (Hmax : nd_max c = trapezoids grid (fun i => f (grid_point grid i))).
  { rewrite nd_max_mono; [|rewrite Hcs, Hs; apply lens_pos, HG|exact Hmono]. rewrite Hcs, Hcl. exact Htot. }
  set (T := trapezoids grid (fun i => f (grid_point grid i))) in *. exists (nint grid (fun idx => at_ c idx / T)).
  assert (Hmono' : mono_idx (lens grid) (fun idx => at_ c idx / T)).
  { intros i j Hj Hij. apply Rmult_le_compat_r; [left; apply Rinv_0_lt_compat, HT|]. apply Hmono; [rewrite Hcs, Hs; exact Hj|exact Hij]. }
  assert (Hval : forall idx, inb (lens grid) idx -> at_ c idx / T = trapezoids (cut_edges grid idx) (fun i => f (grid_point grid i)) / T).
  { intros idx Hi. rewrite Hcv by (rewrite Hs; exact Hi). rewrite Hcut by exact Hi. reflexivity. }
  assert (Htop : map (fun g => nth (length g - 1) g 0) grid = node grid (map (fun n => (n - 1)%nat) (lens grid))).
  { unfold node, lens. clear. induction grid as [|g gs IH]; [reflexivity|]. cbn. rewrite IH. reflexivity. }
  assert (Hlast : inb (lens grid) (map (fun n => (n - 1)%nat) (lens grid))) by (apply last_inb, lens_pos, HG).
  assert (H1 : nint grid (fun idx => at_ c idx / T) (map (fun g => nth (length g - 1) g 0) grid) = 1).
  { rewrite Htop, nint_node by assumption. rewrite <- Hs, Hcl, Htot. field. lra. }
  assert (Hzero : forall idx, inb (lens grid) idx -> In 0%nat idx -> at_ c idx / T = 0).
  { intros idx Hi Hin. rewrite (Hc0 idx) by (try exact Hin; rewrite Hs; exact Hi). unfold Rdiv. ring. }
  split; [|split; [|split; [|split; [|split]]]].
  - intros x Hx. unfold kde_cdf. rewrite Ha. cbn [bind]. rewrite Hc. cbn [bind]. rewrite ascending_grid by exact HG. cbn [negb]. rewrite Hmax. destruct (Reqb_spec T 0); [lra|].
    f_equal. f_equal. rewrite rgi_nested by exact Hx. reflexivity.
  - intros idx Hi. rewrite nint_node by assumption. apply Hval, Hi.
  - intros x Hx. split.
    + apply Rle_trans with (nint grid (fun _ => 0) x).
      * right. symmetry. clear - HG Hx. revert x Hx. induction grid as [|h gs IH]; intros x Hx; inversion Hx; subst; cbn [nint]; [reflexivity|]. destruct (is_grid_head h gs HG) as [Hl Hinc].
        apply interp_zero; try assumption. intros i Hi. apply IH; [apply (is_grid_tail h), HG|assumption].
      * apply nint_le; try assumption. intros idx Hi. apply Rmult_le_pos; [|left; apply Rinv_0_lt_compat, HT]. apply (Hcm idx idx); [rewrite Hs; exact Hi|apply le_idx_refl].
    + rewrite <- H1. apply nint_mono; try assumption.
      * rewrite Htop. apply node_in_grid; assumption.
      * clear - Hx. induction Hx as [|g t gs x Ht _ IH]; cbn; constructor; [apply Ht|exact IH].
  - intros x y Hx Hy Hxy. apply nint_mono; assumption.
  - intros x k Hx Hk Hz. apply (nint_face grid HG _ x k Hx Hk Hz). intros idx Hi Hn. apply Hzero; [exact Hi|]. rewrite <- Hn. apply nth_In. rewrite (inb_length _ _ Hi), lens_length. exact Hk.
  - exact H1.
Qed.
Theorem cdf_not_implemented K grid pg rg x : pg = true \/ rg = true -> kde_cdf K grid pg rg x = Err NotImplementedError.
Proof. intros [->| ->]; unfold kde_cdf; [reflexivity|]. destruct pg; reflexivity. Qed.

(** C33: one dimension, outside the grid *)
Lemma bin_above g v : (forall i j, (i < j < length g)%nat -> nth i g 0 < nth j g 0) -> (2 <= length g)%nat -> nth (length g - 1) g 0 < v -> rgi_cell g v = (length g - 2)%nat.
Proof.
  intros Hi Hl Hv. unfold rgi_cell, interp_bin. destruct (ssleft_spec (vget g) v (S (length g - 1)) 0) as (H1 & H2 & H3). set (k := ssleft (vget g) v (S (length g - 1)) 0) in *.
  assert (Hk : k = length g).
  { destruct (lt_dec k (length g)) as [Hlt|]; [|lia]. exfalso. specialize (H3 ltac:(lia)). unfold vget in H3. destruct (Nat.eq_dec k (length g - 1)) as [E|E]; [rewrite E in H3; lra|]. pose proof (Hi k (length g - 1)%nat ltac:(lia)). lra. }
  rewrite Hk. lia.
Qed.
Lemma bin_below g v : (2 <= length g)%nat -> v < nth 0 g 0 -> rgi_cell g v = 0%nat.
Proof.
  intros Hl Hv. unfold rgi_cell, interp_bin. cbn [ssleft]. unfold vget at 1. destruct (Rleb_spec v (nth 0 g 0)); [|lra]. lia.
Qed.
Lemma cut_snoc g i : (S i < length g)%nat -> forall f, trapezoid (firstn (S (S i)) g) f = trapezoid (firstn (S i) g) f + (nth (S i) g 0 - nth i g 0) * (f i + f (S i)) / 2.
Proof.
  intros Hi f. unfold trapezoid. rewrite !firstn_length. replace (Nat.min (S (S i)) (length g) - 1)%nat with (S i) by lia. replace (Nat.min (S i) (length g) - 1)%nat with i by lia.
  cbn [rsum]. f_equal.
  - apply rsum_ext. intros j Hj. rewrite !nth_firstn_lt by lia. reflexivity.
  - rewrite !nth_firstn_lt by lia. reflexivity.
Qed.
Theorem cdf_outside K g f : is_grid [g] -> kde_density K true 1 None PNone = Ok f -> (forall x, 0 <= f x) -> 0 < trapezoid g (fun i => f (grid_point [g] [i])) ->
  (0 < f (grid_point [g] [(List.length g - 2)%nat]) + f (grid_point [g] [(List.length g - 1)%nat]) ->
     forall x, nth (List.length g - 1) g 0 < x -> exists v, kde_cdf K [g] false false [x] = Ok (Fin v) /\ 1 < v)
  /\ (0 < f (grid_point [g] [0%nat]) + f (grid_point [g] [1%nat]) ->
     forall x, x < nth 0 g 0 -> exists v, kde_cdf K [g] false false [x] = Ok (Fin v) /\ v < 0).
Proof.
  intros HG Hf Hpos HT. destruct (HG g (or_introl eq_refl)) as [Hl Hi].
  destruct (density_grid_pointwise K true None PNone [g] f Hf) as [a [Ha [Hs Hv]]]. change (map (@length R) [g]) with (lens [g]) in *.
  assert (Hne : forall x, In x [g] -> x <> [] /\ incr_list x).
  { intros x Hx. destruct (HG x Hx) as [H1 H2]. split; [intros ->; cbn in H1; lia|]. intros i j Hij Hj. apply H2. lia. }
  assert (Hap : forall idx, inb (shp a) idx -> 0 <= at_ a idx) by (intros idx Hx; rewrite Hv by exact Hx; apply Hpos).
  destruct (cumtrapz_value a [g] Hs (fun x Hx => proj1 (Hne x Hx))) as [c [Hc [Hcs [Hcv [Hc0 Hcl]]]]].
  destruct (cumtrapz_monotone a [g] Hs Hne Hap) as [c' [Hc' Hcm]]. assert (c' = c) by congruence. subst c'.
  assert (Hmono : mono_idx (shp c) (at_ c)) by (intros i j Hj Hij; rewrite Hcs in Hj; apply (Hcm i j Hj Hij)).
  set (h := fun i => f (grid_point [g] [i])) in *.
  assert (Hin1 : forall i, (i < length g)%nat -> inb (shp a) [i]) by (intros i Hil; rewrite Hs; constructor; [exact Hil|constructor]).
  assert (Hval : forall i, (i < length g)%nat -> at_ c [i] = trapezoid (firstn (S i) g) h).
  { intros i Hil. rewrite Hcv by (apply Hin1, Hil). cbn [cut_edges trapezoids]. apply trapezoid_ext. intros j Hj. rewrite firstn_length in Hj. rewrite Hv by (apply Hin1; lia). reflexivity. }
  assert (Hcl' : at_ c [(length g - 1)%nat] = trapezoid g h).
  { rewrite Hval by lia. rewrite firstn_all2 by lia. reflexivity. }
  assert (Hmax : nd_max c = trapezoid g h).
  { rewrite nd_max_mono; [|rewrite Hcs, Hs; apply lens_pos, HG|exact Hmono]. rewrite Hcs, Hs. exact Hcl'. }
  set (T := trapezoid g h) in *.
  assert (Hrun : forall x, kde_cdf K [g] false false [x] = Ok (Fin (interp (vget g) (fun i => at_ c [i] / T) (length g - 1) x))).
  { intros x. unfold kde_cdf. rewrite Ha. cbn [bind]. rewrite Hc. cbn [bind]. rewrite ascending_grid by exact HG. cbn [negb]. rewrite Hmax. destruct (Reqb_spec T 0); [lra|].
    f_equal. f_equal. rewrite rgi_nested by reflexivity. reflexivity. }
  split.
  - intros Hlast x Hx. eexists. split; [apply Hrun|]. unfold interp. change (interp_bin (vget g) (length g - 1) x) with (rgi_cell g x). rewrite bin_above by assumption.
    replace (S (length g - 2)) with (length g - 1)%nat by lia. pose proof (Hi (length g - 2)%nat (length g - 1)%nat ltac:(lia)) as Hd.
    assert (Hst : at_ c [(length g - 1)%nat] = at_ c [(length g - 2)%nat] + (nth (length g - 1) g 0 - nth (length g - 2) g 0) * (h (length g - 2)%nat + h (length g - 1)%nat) / 2).
    { rewrite !Hval by lia. replace (S (length g - 1)) with (S (S (length g - 2))) by lia. rewrite cut_snoc by lia. replace (S (length g - 2)) with (length g - 1)%nat by lia. reflexivity. }
    unfold vget. rewrite Hcl' in *. set (x0 := nth (length g - 2) g 0) in *. set (x1 := nth (length g - 1) g 0) in *. set (y0 := at_ c [(length g - 2)%nat]) in *. set (s := h (length g - 2)%nat + h (length g - 1)%nat) in *.
    replace (y0 / T + (T / T - y0 / T) / (x1 - x0) * (x - x0)) with (1 + (T - y0) / (x1 - x0) / T * (x - x1)) by (field; split; lra).
    replace ((T - y0) / (x1 - x0)) with (s / 2) by (apply (Rmult_eq_reg_r (x1 - x0)); [|lra]; unfold Rdiv at 2; rewrite Rmult_assoc, Rinv_l by lra; lra).
    assert (0 < s / 2 / T * (x - x1)); [|lra]. apply Rmult_lt_0_compat; [|lra]. apply Rmult_lt_0_compat; [|apply Rinv_0_lt_compat, HT]. change (0 < s) in Hlast. lra.
  - intros Hfirst x Hx. eexists. split; [apply Hrun|]. unfold interp. change (interp_bin (vget g) (length g - 1) x) with (rgi_cell g x). rewrite bin_below by assumption.
    pose proof (Hi 0%nat 1%nat ltac:(lia)) as Hd.
    assert (H0 : at_ c [0%nat] = 0) by (rewrite Hval by lia; unfold trapezoid; rewrite firstn_length; replace (Nat.min 1 (length g) - 1)%nat with 0%nat by lia; reflexivity).
    assert (H1 : at_ c [1%nat] = (nth 1 g 0 - nth 0 g 0) * (h 0%nat + h 1%nat) / 2).
    { rewrite Hval by lia. rewrite cut_snoc by lia. rewrite <- Hval by lia. rewrite H0. ring. }
    unfold vget. rewrite H0, H1. set (x0 := nth 0 g 0) in *. set (x1 := nth 1 g 0) in *. set (s := h 0%nat + h 1%nat) in *.
    replace (0 / T + ((x1 - x0) * s / 2 / T - 0 / T) / (x1 - x0) * (x - x0)) with (- (s / 2 / T * (x0 - x))) by (field; split; lra).
    assert (0 < s / 2 / T * (x0 - x)); [|lra]. apply Rmult_lt_0_compat; [|lra]. apply Rmult_lt_0_compat; [|apply Rinv_0_lt_compat, HT]. change (0 < s) in Hfirst. lra.
Qed.

(** Proofs about flatten, flatlen and really1d. *)
From Verif Require Import Base ModelUtils SpecNested.
Notation length := List.length.

Lemma tree_induction {A} (P : tree A -> Prop) : (forall a, P (Leaf a)) -> (forall l, Forall P l -> P (Node l)) -> forall t, P t.
Proof.
  intros HL HN. fix IH 1. intros [a|l]; [apply HL|]. apply HN. induction l as [|t l IHl]; constructor; [apply IH|exact IHl].
Qed.

(** The elements of a flattening result. *)
Definition elements {A} (f : flat A) : list A := match f with FScalar a => [a] | FVec v => v end.

Lemma leaves_node {A} (l : list (tree A)) : leaves (Node l) = flat_map leaves l.
Proof. cbn. induction l as [|t l IH]; [reflexivity|]. cbn. f_equal. Qed.

Lemma flatten_node {A} strict (l : list (tree A)) : flatten strict (Node l) =
  (do one <- really1d strict (Node l) ;;
   if one then Ok (FVec (leaves1 l)) else
   do parts <- mapM (flatten strict) l ;;
   if existsb (fun f => match f with FScalar _ => true | FVec _ => false end) parts then Err ValueError
   else Ok (FVec (flat_map (fun f => match f with FScalar _ => [] | FVec v => v end) parts))).
Proof.
  cbn [flatten]. destruct (really1d strict (Node l)) as [one|e]; [|reflexivity]. cbn [bind]. destruct one; [reflexivity|].
  match goal with |- bind ?x _ = bind ?y _ => assert (E : x = y); [|rewrite E; reflexivity] end.
  clear. induction l as [|t l IH]; [reflexivity|]. cbn [mapM]. rewrite IH. reflexivity.
Qed.
Lemma flatlen_node {A} strict (l : list (tree A)) : flatlen strict (Node l) =
  (do one <- really1d strict (Node l) ;;
   if one then Ok (length l) else do parts <- mapM (flatlen strict) l ;; Ok (fold_right Nat.add 0%nat parts)).
Proof.
  cbn [flatlen]. destruct (really1d strict (Node l)) as [one|e]; [|reflexivity]. cbn [bind]. destruct one; [reflexivity|].
  match goal with |- bind ?x _ = bind ?y _ => assert (E : x = y); [|rewrite E; reflexivity] end.
  clear. induction l as [|t l IH]; [reflexivity|]. cbn [mapM]. rewrite IH. reflexivity.
Qed.

Lemma existsb_false_all {A} (f : A -> bool) l : existsb f l = false <-> forall x, In x l -> f x = false.
Proof.
  induction l as [|a l IH]; cbn; [split; [intros _ x []|reflexivity]|]. rewrite orb_false_iff, IH. split.
  - intros [H1 H2] x [<-|Hx]; auto.
  - intros H. split; [apply H; left; reflexivity|intros; apply H; right; assumption].
Qed.

Lemma mapM_Ok_In {A B} (f : A -> res B) l ys : mapM f l = Ok ys -> forall x, In x l -> exists y, f x = Ok y /\ In y ys.
Proof.
  revert ys. induction l as [|a l IH]; intros ys H x Hx; [destruct Hx|]. cbn in H.
  destruct (f a) as [y|e] eqn:E; [|discriminate H]. cbn in H. destruct (mapM f l) as [zs|e] eqn:EM; [|discriminate H]. injection H as <-.
  destruct Hx as [<-|Hx]; [exists y; split; [exact E|left; reflexivity]|].
  destruct (IH zs eq_refl x Hx) as [z [H1 H2]]. exists z. split; [exact H1|right; exact H2].
Qed.
Lemma mapM_Ok_Forall2 {A B} (f : A -> res B) l ys : mapM f l = Ok ys <-> Forall2 (fun x y => f x = Ok y) l ys.
Proof.
  split.
  - revert ys. induction l as [|a l IH]; intros ys H; cbn in H; [injection H as <-; constructor|].
    destruct (f a) as [y|e] eqn:E; [|discriminate H]. cbn in H. destruct (mapM f l) as [zs|e]; [|discriminate H]. injection H as <-.
    constructor; [exact E|apply IH; reflexivity].
  - induction 1 as [|x y l ys Hxy _ IH]; [reflexivity|]. cbn. rewrite Hxy. cbn. rewrite IH. reflexivity.
Qed.
Lemma mapM_ok_all {A B} (f : A -> res B) l : (forall x, In x l -> exists y, f x = Ok y) -> exists ys, mapM f l = Ok ys.
Proof.
  induction l as [|a l IH]; intros H; [eexists; reflexivity|]. destruct (H a (or_introl eq_refl)) as [y E].
  destruct (IH (fun x Hx => H x (or_intror Hx))) as [ys E']. cbn. rewrite E. cbn. rewrite E'. eexists. reflexivity.
Qed.

Lemma not_scalar_leaf {A} strict (t : tree A) b : not_scalar strict t = Ok b -> b = negb (is_leaf t).
Proof. destruct t as [a|l]; cbn [not_scalar]; [intros H; injection H as <-; reflexivity|]. destruct (tshape (Node l)), strict; intros H; try discriminate H; injection H as <-; reflexivity. Qed.

(** really1d *)
Theorem really1d_flat {A} strict (t : tree A) : really1d strict t = Ok true <-> exists l, t = Node l /\ forall s, In s l -> exists a, s = Leaf a.
Proof.
  destruct t as [a|l].
  - cbn. split; [intros H; discriminate H|intros [l [H _]]; discriminate H].
  - split.
    + intros H. exists l. split; [reflexivity|]. intros s Hs. destruct l as [|t0 l]; [destruct Hs|].
      cbn [really1d] in H. destruct (mapM (not_scalar strict) (t0 :: l)) as [bs|e] eqn:E; [|discriminate H]. cbn [bind] in H. injection H as H.
      apply negb_true_iff in H. rewrite existsb_false_all in H. destruct (mapM_Ok_In _ _ _ E s Hs) as [b [E1 E2]].
      specialize (H b E2). subst b. apply not_scalar_leaf in E1. destruct s as [a|m]; [eauto|discriminate E1].
    + intros [l' [E H]]. injection E as <-. destruct l as [|t0 l]; [reflexivity|]. cbn [really1d].
      assert (EM : mapM (not_scalar strict) (t0 :: l) = Ok (map (fun _ => false) (t0 :: l))).
      { revert H. generalize (t0 :: l). intros m H. induction m as [|s m IH]; [reflexivity|]. cbn [mapM map].
        destruct (H s (or_introl eq_refl)) as [a ->]. cbn [not_scalar bind]. rewrite IH by (intros; apply H; right; assumption). reflexivity. }
      rewrite EM. cbn [bind]. f_equal. apply negb_true_iff, existsb_false_all. intros b Hb. apply in_map_iff in Hb. destruct Hb as [x [<- _]]. reflexivity.
Qed.
(** Without the numpy strictness it always answers. *)
Theorem really1d_total {A} (t : tree A) : exists b, really1d false t = Ok b.
Proof.
  destruct t as [a|l]; [eexists; reflexivity|]. destruct l as [|t0 l]; [eexists; reflexivity|]. cbn [really1d].
  destruct (mapM_ok_all (not_scalar false) (t0 :: l)) as [bs E].
  - intros [a|m] _; [eexists; reflexivity|]. cbn. destruct (match map tshape m with [] => _ | _ => _ end); eexists; reflexivity.
  - rewrite E. eexists. reflexivity.
Qed.
Theorem really1d_strict {A} (l : list (tree A)) : (exists b, really1d true (Node l) = Ok b) <-> forall t, In t l -> tshape t <> None.
Proof.
  destruct l as [|t0 l]; [split; [intros _ t []|eexists; reflexivity]|]. cbn [really1d]. split.
  - intros [b H] t Ht. destruct (mapM (not_scalar true) (t0 :: l)) as [bs|e] eqn:E; [|discriminate H].
    destruct (mapM_Ok_In _ _ _ E t Ht) as [c [E1 _]]. destruct t as [a|m]; [discriminate|]. cbn [not_scalar] in E1. destruct (tshape (Node m)); [discriminate|discriminate E1].
  - intros H. destruct (mapM_ok_all (not_scalar true) (t0 :: l)) as [bs E]; [|rewrite E; eexists; reflexivity].
    intros t Ht. specialize (H t Ht). destruct t as [a|m]; [eexists; reflexivity|]. cbn [not_scalar]. destruct (tshape (Node m)); [eexists; reflexivity|contradiction].
Qed.

Lemma leaves1_leaves {A} (l : list (tree A)) : (forall s, In s l -> exists a, s = Leaf a) -> leaves1 l = flat_map leaves l /\ length l = length (flat_map leaves l).
Proof.
  intros H. induction l as [|s l IH]; [split; reflexivity|]. destruct (H s (or_introl eq_refl)) as [a ->].
  destruct IH as [IH1 IH2]; [intros; apply H; right; assumption|]. cbn. unfold leaves1 in IH1. rewrite IH1, <- IH2. split; reflexivity.
Qed.

(** flatten returns the leaves from left to right. *)
Theorem flatten_leaves {A} strict (t : tree A) f : flatten strict t = Ok f -> elements f = leaves t.
Proof.
  revert f. induction t as [a|l IH] using tree_induction; intros f H; [injection H as <-; reflexivity|].
  rewrite flatten_node in H. destruct (really1d strict (Node l)) as [one|e] eqn:E1; [|discriminate H]. cbn [bind] in H. destruct one.
  - injection H as <-. apply really1d_flat in E1. destruct E1 as [l' [E HL]]. injection E as <-. cbn [elements]. rewrite leaves_node. apply leaves1_leaves, HL.
  - destruct (mapM (flatten strict) l) as [parts|e] eqn:EM; [|discriminate H]. cbn [bind] in H. destruct (existsb _ parts) eqn:EX; [discriminate H|].
    injection H as <-. rewrite leaves_node. cbn [elements]. rewrite existsb_false_all in EX. apply mapM_Ok_Forall2 in EM.
    clear E1. induction EM as [|s g l parts Hs _ IHl]; [reflexivity|]. inversion IH as [|? ? Hhead Htail]; subst. cbn [flat_map].
    rewrite IHl by (try assumption; intros; apply EX; right; assumption). f_equal. rewrite <- (Hhead g Hs).
    specialize (EX g (or_introl eq_refl)). destruct g; [discriminate EX|reflexivity].
Qed.

(** flatlen counts the leaves. *)
Theorem flatlen_leaves {A} strict (t : tree A) n : flatlen strict t = Ok n -> n = length (leaves t).
Proof.
  revert n. induction t as [a|l IH] using tree_induction; intros n H; [injection H as <-; reflexivity|].
  rewrite flatlen_node in H. destruct (really1d strict (Node l)) as [one|e] eqn:E1; [|discriminate H]. cbn [bind] in H. rewrite leaves_node. destruct one.
  - injection H as <-. apply really1d_flat in E1. destruct E1 as [l' [E HL]]. injection E as <-. apply leaves1_leaves, HL.
  - destruct (mapM (flatlen strict) l) as [parts|e] eqn:EM; [|discriminate H]. injection H as <-. apply mapM_Ok_Forall2 in EM.
    clear E1. induction EM as [|s g l parts Hs _ IHl]; [reflexivity|]. inversion IH as [|? ? Hhead Htail]; subst. cbn [flat_map fold_right].
    rewrite app_length, IHl by assumption. f_equal. apply Hhead, Hs.
Qed.

(** Whenever flatten succeeds so does flatlen. *)
Theorem flatten_flatlen {A} strict (t : tree A) f : flatten strict t = Ok f -> flatlen strict t = Ok (length (elements f)).
Proof.
  intros H. rewrite (flatten_leaves _ _ _ H). assert (G : exists n, flatlen strict t = Ok n).
  { revert f H. induction t as [a|l IH] using tree_induction; intros f H; [eexists; reflexivity|].
    rewrite flatten_node in H. rewrite flatlen_node. destruct (really1d strict (Node l)) as [one|e]; [|discriminate H]. cbn [bind] in *. destruct one; [eexists; reflexivity|].
    destruct (mapM (flatten strict) l) as [parts|e] eqn:EM; [|discriminate H]. destruct (mapM_ok_all (flatlen strict) l) as [ns E].
    - intros s Hs. destruct (mapM_Ok_In _ _ _ EM s Hs) as [g [Hg _]]. rewrite Forall_forall in IH. apply (IH s Hs g Hg).
    - rewrite E. eexists. reflexivity. }
  destruct G as [n E]. rewrite E. f_equal. apply (flatlen_leaves _ _ _ E).
Qed.
Theorem flatten_scalar {A} strict (t : tree A) a : flatten strict t = Ok (FScalar a) <-> t = Leaf a.
Proof.
  split; [|intros ->; reflexivity]. destruct t as [b|l]; [intros H; injection H as <-; reflexivity|]. rewrite flatten_node.
  destruct (really1d strict (Node l)) as [[|]|e]; cbn [bind]; intros H; try discriminate H.
  destruct (mapM (flatten strict) l); [|discriminate H]. cbn [bind] in H. destruct (existsb _ _); discriminate H.
Qed.

(** Older numpy: flatlen always answers; flatten exactly when no list mixes scalars and lists. *)
Theorem flatlen_total {A} (t : tree A) : flatlen false t = Ok (length (leaves t)).
Proof.
  assert (G : exists n, flatlen false t = Ok n).
  { induction t as [a|l IH] using tree_induction; [eexists; reflexivity|]. rewrite flatlen_node. destruct (really1d_total (Node l)) as [b ->].
    cbn [bind]. destruct b; [eexists; reflexivity|]. destruct (mapM_ok_all (flatlen false) l) as [ns E].
    - rewrite Forall_forall in IH. exact IH.
    - rewrite E. eexists. reflexivity. }
  destruct G as [n E]. rewrite E. f_equal. apply (flatlen_leaves _ _ _ E).
Qed.
Theorem flatten_ok_iff {A} (t : tree A) : (exists f, flatten false t = Ok f) <-> unmixed t.
Proof.
  induction t as [a|l IH] using tree_induction; [split; [intros _; constructor|eexists; reflexivity]|]. rewrite Forall_forall in IH. split.
  - intros [f H]. rewrite flatten_node in H. destruct (really1d false (Node l)) as [one|e] eqn:E1; [|discriminate H]. cbn [bind] in H. destruct one.
    + apply really1d_flat in E1. destruct E1 as [l' [E HL]]. injection E as <-. apply um_flat, HL.
    + destruct (mapM (flatten false) l) as [parts|e] eqn:EM; [|discriminate H]. cbn [bind] in H. destruct (existsb _ parts) eqn:EX; [discriminate H|].
      rewrite existsb_false_all in EX. apply um_nested. intros s Hs. destruct (mapM_Ok_In _ _ _ EM s Hs) as [g [Hg Hin]]. split; [|apply IH; eauto].
      specialize (EX g Hin). destruct s as [a|m]; [|eauto]. injection Hg as <-. discriminate EX.
  - intros H. rewrite flatten_node. destruct (really1d_total (Node l)) as [one E1]. rewrite E1. cbn [bind]. destruct one; [eexists; reflexivity|].
    inversion H as [|l' HL|l' HN]; subst.
    + rewrite (proj2 (really1d_flat false (Node l))) in E1 by eauto. discriminate E1.
    + destruct (mapM_ok_all (flatten false) l) as [parts EM]; [intros s Hs; apply IH; [exact Hs|apply HN, Hs]|]. rewrite EM. cbn [bind].
      destruct (existsb _ parts) eqn:EX; [|eexists; reflexivity]. apply existsb_exists in EX. destruct EX as [g [Hg1 Hg2]].
      exfalso. apply mapM_Ok_Forall2 in EM. assert (G : exists s, In s l /\ flatten false s = Ok g).
      { clear - EM Hg1. induction EM as [|s h l parts Hs _ IHl]; [destruct Hg1|]. destruct Hg1 as [<-|Hg1]; [exists s; split; [left; reflexivity|exact Hs]|].
        destruct (IHl Hg1) as [s' [H1 H2]]. exists s'. split; [right; exact H1|exact H2]. }
      destruct G as [s [Hs E]]. destruct g as [a|v]; [|discriminate Hg2]. apply flatten_scalar in E. destruct (HN s Hs) as [[m Em] _]. subst s. discriminate Em.
Qed.

(** Newer numpy (jagged arrays refused). *)
Lemma shape_eqb_eq s t : shape_eqb s t = true -> s = t /\ s <> None.
Proof. unfold shape_eqb. destruct s as [a|], t as [b|]; try discriminate. destruct (list_eq_dec Nat.eq_dec a b) as [->|]; [|discriminate]. intros _. split; [reflexivity|discriminate]. Qed.
Lemma regular_children {A} (l : list (tree A)) sh : tshape (Node l) = Some sh -> l = [] \/ exists c, forall s, In s l -> tshape s = Some c.
Proof.
  intros H. destruct l as [|s0 l]; [left; reflexivity|right]. cbn [tshape map] in H.
  destruct (forallb (shape_eqb (tshape s0)) (map tshape l)) eqn:E; [|discriminate H].
  destruct (tshape s0) as [c|] eqn:E0; [|discriminate H]. exists c. intros s [<-|Hs]; [exact E0|].
  rewrite forallb_forall in E. specialize (E (tshape s) (in_map tshape _ _ Hs)). apply shape_eqb_eq in E. symmetry. apply E.
Qed.
Lemma tshape_leaf {A} (t : tree A) : tshape t = Some [] -> exists a, t = Leaf a.
Proof.
  destruct t as [a|l]; [eauto|]. cbn [tshape]. destruct (map tshape l) as [|s rest]; [discriminate|].
  destruct (forallb _ _); [|discriminate]. destruct s; discriminate.
Qed.
Lemma tshape_node {A} (t : tree A) k c : tshape t = Some (k :: c) -> exists l, t = Node l.
Proof. destruct t as [a|l]; [discriminate|eauto]. Qed.

Lemma flatten_nested {A} strict (l : list (tree A)) : l <> [] -> (forall s, In s l -> exists m, s = Node m) -> (strict = true -> forall s, In s l -> tshape s <> None) ->
  (forall s, In s l -> exists f, flatten strict s = Ok f) -> exists f, flatten strict (Node l) = Ok f.
Proof.
  intros Hne HN Hsh Hf. rewrite flatten_node.
  assert (E : exists b, really1d strict (Node l) = Ok b) by (destruct strict; [apply really1d_strict, Hsh; reflexivity|apply really1d_total]).
  destruct E as [b E]. rewrite E. cbn [bind]. destruct b; [eexists; reflexivity|]. destruct (mapM_ok_all _ _ Hf) as [parts EM]. rewrite EM. cbn [bind].
  destruct (existsb _ parts) eqn:EX; [|eexists; reflexivity]. apply existsb_exists in EX. destruct EX as [g [Hg1 Hg2]]. exfalso.
  apply mapM_Ok_Forall2 in EM. assert (G : exists s, In s l /\ flatten strict s = Ok g).
  { clear - EM Hg1. induction EM as [|s h l parts Hs _ IHl]; [destruct Hg1|]. destruct Hg1 as [<-|Hg1]; [exists s; split; [left; reflexivity|exact Hs]|].
    destruct (IHl Hg1) as [s' [H1 H2]]. exists s'. split; [right; exact H1|exact H2]. }
  destruct G as [s [Hs Es]]. destruct g as [a|v]; [|discriminate Hg2]. apply flatten_scalar in Es. destruct (HN s Hs) as [m Em]. subst s. discriminate Em.
Qed.

Lemma flatten_regular {A} (t : tree A) : tshape t <> None -> exists f, flatten true t = Ok f.
Proof.
  induction t as [a|l IH] using tree_induction; intros H; [eexists; reflexivity|]. rewrite Forall_forall in IH.
  destruct (tshape (Node l)) as [sh|] eqn:E; [|contradiction]. destruct (regular_children l sh E) as [->|[c Hc]]; [eexists; reflexivity|].
  destruct c as [|k c].
  - rewrite flatten_node. rewrite (proj2 (really1d_flat true (Node l))); [eexists; reflexivity|]. exists l. split; [reflexivity|]. intros s Hs. apply tshape_leaf, Hc, Hs.
  - destruct l as [|s0 l]; [eexists; reflexivity|]. apply flatten_nested; [discriminate|intros s Hs; eapply tshape_node, Hc, Hs| |].
    + intros _ s Hs. rewrite (Hc s Hs). discriminate.
    + intros s Hs. apply IH; [exact Hs|]. rewrite (Hc s Hs). discriminate.
Qed.

Theorem flatten_strict_iff {A} (l : list (tree A)) : (exists f, flatten true (Node l) = Ok f) <->
  (forall s, In s l -> exists a, s = Leaf a) \/ (forall s, In s l -> (exists m, s = Node m) /\ tshape s <> None).
Proof.
  split.
  - intros [f H]. rewrite flatten_node in H. destruct (really1d true (Node l)) as [one|e] eqn:E1; [|discriminate H]. cbn [bind] in H. destruct one.
    + left. apply really1d_flat in E1. destruct E1 as [l' [E HL]]. injection E as <-. exact HL.
    + right. destruct (mapM (flatten true) l) as [parts|e] eqn:EM; [|discriminate H]. cbn [bind] in H. destruct (existsb _ parts) eqn:EX; [discriminate H|].
      rewrite existsb_false_all in EX. intros s Hs. split; [|apply (proj1 (really1d_strict l)); [eauto|exact Hs]].
      destruct (mapM_Ok_In _ _ _ EM s Hs) as [g [Hg Hin]]. specialize (EX g Hin). destruct s as [a|m]; [|eauto]. injection Hg as <-. discriminate EX.
  - intros [HL|HN].
    + rewrite flatten_node. rewrite (proj2 (really1d_flat true (Node l))) by eauto. eexists. reflexivity.
    + destruct l as [|s0 l]; [eexists; reflexivity|]. apply flatten_nested; [discriminate|intros s Hs; apply (HN s Hs)|intros _ s Hs; apply (HN s Hs)|].
      intros s Hs. apply flatten_regular, (HN s Hs).
Qed.

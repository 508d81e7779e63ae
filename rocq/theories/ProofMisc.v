(** Proofs about isjagged, jshape, isinteger, bins and run_if. *)
From Coq Require Import String Ascii ZArith Lra Lia.
From Verif Require Import Base ModelUtils ModelNd ModelApi ModelMisc SpecUtils SpecNd SpecNested SpecMisc ProofUtils ProofUtils3 ProofNd3 ProofNested.
Open Scope R_scope.
Notation length := List.length.

(** The common beginning. *)
Definition starts (p s : list nat) : Prop := exists r, s = p ++ r.
Lemma starts_refl s : starts s s. Proof. exists []. symmetry. apply app_nil_r. Qed.
Lemma starts_trans p q s : starts p q -> starts q s -> starts p s.
Proof. intros [r ->] [r' ->]. exists (r ++ r'). rewrite app_assoc. reflexivity. Qed.
Lemma common_l a b : starts (common a b) a.
Proof. revert b. induction a as [|x a IH]; intros [|y b]; cbn; try (exists (x :: a); reflexivity); try apply starts_refl. destruct (Nat.eqb_spec x y) as [->|N].
  - destruct (IH b) as [r E]. exists r. cbn. f_equal. exact E.
  - exists (x :: a). reflexivity. Qed.
Lemma common_r a b : starts (common a b) b.
Proof. revert b. induction a as [|x a IH]; intros [|y b]; cbn; try (exists (y :: b); reflexivity); try apply starts_refl. destruct (Nat.eqb_spec x y) as [->|N].
  - destruct (IH b) as [r E]. exists r. cbn. f_equal. exact E.
  - exists (y :: b). reflexivity. Qed.
Lemma fold_common s l : starts (fold_left common l s) s /\ forall x, In x l -> starts (fold_left common l s) x.
Proof.
  revert s. induction l as [|y l IH]; intros s; cbn; [split; [apply starts_refl|intros x []]|]. destruct (IH (common s y)) as [H1 H2].
  split; [eapply starts_trans; [exact H1|apply common_l]|]. intros x [<-|Hx]; [eapply starts_trans; [exact H1|apply common_r]|apply H2, Hx].
Qed.
Lemma common_same a : common a a = a.
Proof. induction a as [|x a IH]; [reflexivity|]. cbn. rewrite Nat.eqb_refl, IH. reflexivity. Qed.
Lemma fold_common_same s l : (forall x, In x l -> x = s) -> fold_left common l s = s.
Proof. induction l as [|y l IH]; intros H; [reflexivity|]. cbn. rewrite (H y (or_introl eq_refl)), common_same. apply IH. intros x Hx. apply H. right. exact Hx. Qed.
Lemma oshape_node {A} (l : list (tree A)) : exists c, oshape (Node l) = length l :: c /\ forall s, In s l -> starts c (oshape s).
Proof.
  cbn [oshape]. destruct l as [|s0 l]; [exists []; split; [reflexivity|intros s []]|]. cbn [map]. eexists. split; [reflexivity|].
  destruct (fold_common (oshape s0) (map oshape l)) as [H1 H2]. intros s [<-|Hs]; [exact H1|]. apply H2, in_map, Hs.
Qed.
Lemma starts_firstn p s k : starts p s -> (k <= length p)%nat -> firstn k p = firstn k s.
Proof. intros [r ->] H. rewrite firstn_app. replace (k - length p)%nat with 0%nat by lia. cbn. rewrite app_nil_r. reflexivity. Qed.
Lemma size_firstn_S k n c : size_of_shape (firstn (S k) (n :: c)) = (n * size_of_shape (firstn k c))%nat.
Proof. reflexivity. Qed.

(** Regular lists. *)
Lemma tshape_oshape {A} (t : tree A) sh : tshape t = Some sh -> oshape t = sh.
Proof.
  revert sh. induction t as [a|l IH] using tree_induction; intros sh H; [injection H as <-; reflexivity|]. rewrite Forall_forall in IH.
  destruct (regular_children l sh H) as [->|[c Hc]]; [injection H as <-; reflexivity|]. destruct l as [|s0 l]; [injection H as <-; reflexivity|].
  assert (E : sh = length (s0 :: l) :: c).
  { cbn [tshape map] in H. destruct (forallb _ _); [|discriminate H]. rewrite (Hc s0 (or_introl eq_refl)) in H. injection H as <-. reflexivity. }
  rewrite E. cbn [oshape map]. f_equal. rewrite (IH s0 (or_introl eq_refl) c (Hc s0 (or_introl eq_refl))). apply fold_common_same.
  intros x Hx. apply in_map_iff in Hx. destruct Hx as [s [<- Hs]]. apply (IH s (or_intror Hs)), Hc. right. exact Hs.
Qed.
Lemma flat_map_len {A B} (f : A -> list B) l n : (forall s, In s l -> length (f s) = n) -> length (flat_map f l) = (length l * n)%nat.
Proof. induction l as [|a l IH]; intros H; [reflexivity|]. cbn. rewrite app_length, (H a (or_introl eq_refl)), IH by (intros s Hs; apply H; right; exact Hs). reflexivity. Qed.
Lemma flat_map_len_ge {A B} (f : A -> list B) l n : (forall s, In s l -> (n <= length (f s))%nat) -> (length l * n <= length (flat_map f l))%nat.
Proof. induction l as [|a l IH]; intros H; [cbn; lia|]. cbn. rewrite app_length. pose proof (H a (or_introl eq_refl)). assert (length l * n <= length (flat_map f l))%nat by (apply IH; intros s Hs; apply H; right; exact Hs). lia. Qed.
Lemma flat_map_len_eq {A B} (f : A -> list B) l n : (forall s, In s l -> (n <= length (f s))%nat) -> length (flat_map f l) = (length l * n)%nat -> forall s, In s l -> length (f s) = n.
Proof.
  induction l as [|a l IH]; intros H E s Hs; [destruct Hs|]. cbn in E. rewrite app_length in E. pose proof (H a (or_introl eq_refl)) as Ha.
  assert (G : (length l * n <= length (flat_map f l))%nat) by (apply flat_map_len_ge; intros u Hu; apply H; right; exact Hu).
  destruct Hs as [<-|Hs]; [lia|]. apply IH; [intros u Hu; apply H; right; exact Hu|lia|exact Hs].
Qed.
Lemma tshape_leaves {A} (t : tree A) sh : tshape t = Some sh -> length (leaves t) = size_of_shape sh.
Proof.
  revert sh. induction t as [a|l IH] using tree_induction; intros sh H; [injection H as <-; reflexivity|]. rewrite Forall_forall in IH.
  destruct (regular_children l sh H) as [->|[c Hc]]; [injection H as <-; reflexivity|]. pose proof (tshape_oshape _ _ H) as E.
  destruct l as [|s0 l]; [injection H as <-; reflexivity|].
  rewrite leaves_node. rewrite (flat_map_len leaves (s0 :: l) (size_of_shape c)); [|intros s Hs; apply (IH s Hs), Hc, Hs].
  rewrite <- E. cbn [oshape map]. rewrite (tshape_oshape s0 c (Hc s0 (or_introl eq_refl))), fold_common_same; [reflexivity|].
  intros x Hx. apply in_map_iff in Hx. destruct Hx as [s [<- Hs]]. apply tshape_oshape, Hc. right. exact Hs.
Qed.
Lemma leaves_ge {A} (t : tree A) k : lists_at_least 1 t -> (k <= length (oshape t))%nat -> (size_of_shape (firstn k (oshape t)) <= length (leaves t))%nat.
Proof.
  revert k. induction t as [a|l IH] using tree_induction; intros k HL Hk.
  - cbn in Hk. replace k with 0%nat by lia. cbn. lia.
  - rewrite Forall_forall in IH. inversion HL as [|l' H1 H2]; subst. destruct (oshape_node l) as [c [E Hc]]. rewrite E in *. rewrite leaves_node. destruct k as [|k].
    + cbn. destruct l as [|s0 l]; [cbn in H1; lia|]. cbn [flat_map]. rewrite app_length.
      pose proof (IH s0 (or_introl eq_refl) 0%nat (H2 s0 (or_introl eq_refl)) ltac:(lia)). cbn in H. lia.
    + rewrite size_firstn_S. cbn in Hk. apply flat_map_len_ge. intros s Hs. rewrite (starts_firstn _ _ _ (Hc s Hs)) by lia.
      apply IH; [exact Hs|apply H2, Hs|]. destruct (Hc s Hs) as [r ->]. rewrite app_length. lia.
Qed.
Lemma at_least_mono {A} (t : tree A) m n : (m <= n)%nat -> lists_at_least n t -> lists_at_least m t.
Proof. intros Hmn. induction t as [a|l IH] using tree_induction; intros H; [constructor|]. rewrite Forall_forall in IH. inversion H; subst. constructor; [lia|]. intros s Hs. apply IH; auto. Qed.
Lemma leaves_eq {A} (t : tree A) k : lists_at_least 2 t -> (k <= length (oshape t))%nat -> length (leaves t) = size_of_shape (firstn k (oshape t)) ->
  tshape t = Some (firstn k (oshape t)).
Proof.
  revert k. induction t as [a|l IH] using tree_induction; intros k HL Hk HE.
  - cbn in Hk. replace k with 0%nat by lia. reflexivity.
  - rewrite Forall_forall in IH. inversion HL as [|l' H1 H2]; subst. destruct (oshape_node l) as [c [E Hc]]. rewrite E in *. rewrite leaves_node in HE. destruct k as [|k].
    + cbn in HE. exfalso. assert (G : (length l * 1 <= length (flat_map leaves l))%nat); [|lia]. apply flat_map_len_ge. intros s Hs.
      pose proof (leaves_ge s 0%nat (at_least_mono s 1 2 ltac:(lia) (H2 s Hs)) ltac:(lia)). cbn in H. exact H.
    + rewrite size_firstn_S in HE. cbn in Hk.
      assert (G : forall s, In s l -> length (leaves s) = size_of_shape (firstn k c)).
      { apply flat_map_len_eq; [|exact HE]. intros s Hs. rewrite (starts_firstn _ _ _ (Hc s Hs)) by lia. apply leaves_ge; [apply (at_least_mono s 1 2); [lia|apply H2, Hs]|].
        destruct (Hc s Hs) as [r ->]. rewrite app_length. lia. }
      assert (T : forall s, In s l -> tshape s = Some (firstn k c)).
      { intros s Hs. rewrite (starts_firstn _ _ _ (Hc s Hs)) by lia. apply IH; [exact Hs|apply H2, Hs| |].
        - destruct (Hc s Hs) as [r ->]. rewrite app_length. lia.
        - rewrite <- (starts_firstn _ _ _ (Hc s Hs)) by lia. apply G, Hs. }
      destruct l as [|s0 l]; [cbn in H1; lia|]. cbn [tshape map]. rewrite (T s0 (or_introl eq_refl)).
      assert (F : forallb (shape_eqb (Some (firstn k c))) (map tshape l) = true).
      { apply forallb_forall. intros x Hx. apply in_map_iff in Hx. destruct Hx as [s [<- Hs]]. rewrite (T s (or_intror Hs)). cbn.
        destruct (list_eq_dec Nat.eq_dec (firstn k c) (firstn k c)); [reflexivity|contradiction]. }
      rewrite F. reflexivity.
Qed.

(** isjagged, older numpy. *)
Lemma isjagged_old {A} (t : tree A) : isjagged false t = Ok (negb (Nat.eqb (size_of_shape (oshape t)) (length (leaves t)))).
Proof.
  destruct t as [a|l]; [reflexivity|]. unfold isjagged. rewrite flatlen_total. destruct (tshape (Node l)); reflexivity.
Qed.
Theorem jagged_iff : forall A (t : tree A), lists_at_least 2 t -> (isjagged false t = Ok true <-> tshape t = None).
Proof.
  intros A t H. rewrite isjagged_old. destruct (tshape t) as [sh|] eqn:E.
  - rewrite (tshape_oshape _ _ E), (tshape_leaves _ _ E), Nat.eqb_refl. split; discriminate.
  - split; [reflexivity|intros _]. destruct (Nat.eqb_spec (size_of_shape (oshape t)) (length (leaves t))) as [G|G]; [|reflexivity]. exfalso.
    pose proof (leaves_eq t (length (oshape t)) H ltac:(lia)) as L. rewrite firstn_all in L. rewrite (L (eq_sym G)) in E. discriminate E.
Qed.
Theorem regular_never : forall A (t : tree A) sh strict, tshape t = Some sh -> isjagged strict t = Ok false.
Proof.
  intros A t sh strict E. destruct strict.
  - destruct t as [a|l]; [reflexivity|]. unfold isjagged. rewrite E.
    destruct (flatten_regular (Node l)) as [f Hf]; [congruence|]. pose proof (flatten_flatlen _ _ _ Hf) as Hl. rewrite Hl. cbn [bind].
    rewrite (flatlen_leaves _ _ _ Hl), (tshape_oshape _ _ E), (tshape_leaves _ _ E), Nat.eqb_refl. reflexivity.
  - rewrite isjagged_old, (tshape_oshape _ _ E), (tshape_leaves _ _ E), Nat.eqb_refl. reflexivity.
Qed.
Theorem jagged_new : forall A (t : tree A), tshape t = None -> isjagged true t = Err ValueError.
Proof. intros A [a|l] E; [discriminate E|]. unfold isjagged. rewrite E. reflexivity. Qed.
Theorem jagged_missed : exists t u : tree nat, tshape t = None /\ isjagged false t = Ok false /\ tshape u = None /\ isjagged false u = Ok false
  /\ t = Node [Node [Leaf 1; Leaf 2]; Node []]%nat /\ u = Node [Node [Leaf 1]; Leaf 2]%nat.
Proof. eexists _, _. repeat split; reflexivity. Qed.

(** jshape *)
Lemma jshape_at_node {A} strict d (l : list (tree A)) : jshape_at strict d (Node l) =
  (let d1 := match d with O => length (oshape (Node l)) | S _ => d end in
   do j <- isjagged_array strict d1 (Node l) ;;
   if negb j then Ok (Regular (firstn d1 (oshape (Node l)))) else do parts <- mapM (jshape_at strict (d1 - 1)) l ;; Ok (Jagged (firstn d1 (oshape (Node l))) parts)).
Proof.
  cbn [jshape_at]. cbv zeta. match goal with |- bind ?x _ = bind ?x _ => destruct x as [j|e]; [|reflexivity] end. cbn [bind]. destruct (negb j); [reflexivity|].
  match goal with |- bind ?x _ = bind ?y _ => assert (E : x = y); [|rewrite E; reflexivity] end.
  generalize ((match d with O => length (oshape (Node l)) | S _ => d end - 1)%nat). intros k. induction l as [|t l IH]; [reflexivity|]. cbn [mapM]. rewrite IH. reflexivity.
Qed.
Lemma flatlen_at_node {A} strict d (l : list (tree A)) : flatlen_at strict (S d) (Node l) =
  (do one <- (match d with O => really1d strict (Node l) | S _ => Ok (Nat.eqb (length l) 0) end) ;;
   if one then Ok (length l) else do parts <- mapM (flatlen_at strict d) l ;; Ok (fold_right Nat.add 0%nat parts)).
Proof. reflexivity. Qed.
Lemma one_leaves {A} strict d (l : list (tree A)) : (match d with O => really1d strict (Node l) | S _ => Ok (Nat.eqb (length l) 0) end) = Ok true ->
  length l = length (flat_map leaves l).
Proof.
  destruct d as [|d].
  - intros H. apply really1d_flat in H. destruct H as [l' [E HL]]. injection E as <-. clear -HL. induction l as [|s l IH]; [reflexivity|]. cbn.
    rewrite app_length, <- IH by (intros u Hu; apply HL; right; exact Hu). destruct (HL s (or_introl eq_refl)) as [a ->]. reflexivity.
  - intros H. injection H as H. apply Nat.eqb_eq in H. destruct l; [reflexivity|discriminate H].
Qed.
Lemma flatlen_at_ok {A} strict d (t : tree A) n : flatlen_at strict d t = Ok n -> n = length (leaves t).
Proof.
  revert t n. induction d as [|d IH]; intros t n H; [apply (flatlen_leaves _ _ _ H)|]. destruct t as [a|l]; [injection H as <-; reflexivity|].
  rewrite flatlen_at_node in H. rewrite leaves_node.
  match type of H with bind ?x _ = _ => destruct x as [one|e] eqn:E1 end; [|discriminate H]. cbn [bind] in H. destruct one; [injection H as <-; apply (one_leaves strict d l E1)|].
  destruct (mapM (flatlen_at strict d) l) as [parts|e] eqn:EM; [|discriminate H]. injection H as <-. apply mapM_Ok_Forall2 in EM. clear E1.
  induction EM as [|s p l ps Hs _ IHl]; [reflexivity|]. cbn [flat_map fold_right]. rewrite app_length, IHl. f_equal. apply IH, Hs.
Qed.
Lemma flatlen_at_total {A} d (t : tree A) : flatlen_at false d t = Ok (length (leaves t)).
Proof.
  assert (G : exists n, flatlen_at false d t = Ok n).
  { revert t. induction d as [|d IH]; intros t; [eexists; apply flatlen_total|]. destruct t as [a|l]; [eexists; reflexivity|]. rewrite flatlen_at_node.
    assert (E : exists b, (match d with O => really1d false (Node l) | S _ => Ok (Nat.eqb (length l) 0) end) = Ok b) by (destruct d; [apply really1d_total|eexists; reflexivity]).
    destruct E as [b ->]. cbn [bind]. destruct b; [eexists; reflexivity|]. destruct (mapM_ok_all (flatlen_at false d) l) as [ns E]; [intros s _; apply IH|].
    rewrite E. eexists. reflexivity. }
  destruct G as [n E]. rewrite E. f_equal. apply (flatlen_at_ok _ _ _ _ E).
Qed.
Lemma flatlen_at_regular {A} d (t : tree A) : tshape t <> None -> exists n, flatlen_at true d t = Ok n.
Proof.
  revert t. induction d as [|d IH]; intros t H.
  - destruct (flatten_regular t H) as [f Hf]. eexists. apply (flatten_flatlen _ _ _ Hf).
  - destruct t as [a|l]; [eexists; reflexivity|]. rewrite flatlen_at_node.
    assert (C : forall s, In s l -> tshape s <> None).
    { destruct (tshape (Node l)) as [sh|] eqn:E; [|contradiction]. destruct (regular_children l sh E) as [->|[c Hc]]; [intros s []|]. intros s Hs. rewrite (Hc s Hs). discriminate. }
    assert (E : exists b, (match d with O => really1d true (Node l) | S _ => Ok (Nat.eqb (length l) 0) end) = Ok b) by (destruct d; [apply really1d_strict, C|eexists; reflexivity]).
    destruct E as [b ->]. cbn [bind]. destruct b; [eexists; reflexivity|]. destruct (mapM_ok_all (flatlen_at true d) l) as [ns E]; [intros s Hs; apply IH, C, Hs|].
    rewrite E. eexists. reflexivity.
Qed.
Lemma array_jagged_ok {A} strict d (t : tree A) : (strict = true -> tshape t <> None) -> isjagged_array strict (S d) t =
  Ok (negb (Nat.eqb (size_of_shape (firstn (S d) (oshape t))) (length (leaves t)))).
Proof.
  intros H. unfold isjagged_array. destruct strict.
  - destruct (flatlen_at_regular (S d) t (H eq_refl)) as [n E]. rewrite E. cbn [bind]. rewrite (flatlen_at_ok _ _ _ _ E). reflexivity.
  - rewrite flatlen_at_total. reflexivity.
Qed.
Theorem jshape_regular : forall A (t : tree A) sh strict, tshape t = Some sh -> jshape strict t = Ok (Regular sh).
Proof.
  intros A t sh strict E. unfold jshape. destruct t as [a|l]; [injection E as <-; reflexivity|]. rewrite jshape_at_node. cbv zeta.
  destruct (oshape_node l) as [c [Eo _]]. rewrite Eo. cbn [length]. rewrite array_jagged_ok by congruence. rewrite Eo.
  replace (firstn (S (length c)) (length l :: c)) with (length l :: c) by (symmetry; apply (firstn_all (length l :: c))).
  rewrite <- Eo, (tshape_oshape _ _ E), (tshape_leaves _ _ E), Nat.eqb_refl. reflexivity.
Qed.
Theorem jshape_iff : forall A (t : tree A) sh, lists_at_least 2 t -> (jshape false t = Ok (Regular sh) <-> tshape t = Some sh).
Proof.
  intros A t sh HL. split; [|apply jshape_regular]. unfold jshape. destruct t as [a|l]; [intros H; injection H as <-; reflexivity|]. rewrite jshape_at_node. cbv zeta.
  destruct (oshape_node l) as [c [Eo _]]. rewrite Eo. cbn [length]. rewrite array_jagged_ok by discriminate. rewrite Eo.
  replace (firstn (S (length c)) (length l :: c)) with (length l :: c) by (symmetry; apply (firstn_all (length l :: c))). cbn [bind].
  rewrite Bool.negb_involutive. destruct (Nat.eqb_spec (size_of_shape (length l :: c)) (length (leaves (Node l)))) as [G|G].
  - intros H. injection H as <-. pose proof (leaves_eq (Node l) (length (oshape (Node l))) HL ltac:(lia)) as L. rewrite firstn_all, Eo in L. apply L. symmetry. exact G.
  - destruct (mapM _ l); discriminate.
Qed.

Lemma row_tshape {A} (r : list A) : tshape (Node (map Leaf r)) = Some [length r].
Proof.
  destruct r as [|a r]; [reflexivity|]. cbn [map tshape]. rewrite map_map. cbn [tshape].
  assert (F : forallb (shape_eqb (Some [])) (map (fun _ : A => Some []) r) = true); [|rewrite F; cbn [length]; rewrite map_length; reflexivity].
  apply forallb_forall. intros x Hx. apply in_map_iff in Hx. destruct Hx as [y [<- _]]. reflexivity.
Qed.
Lemma row_leaves {A} (r : list A) : leaves (Node (map Leaf r)) = r.
Proof. rewrite leaves_node. induction r as [|a r IH]; [reflexivity|]. cbn. rewrite IH. reflexivity. Qed.
Lemma fold_common_nil l : fold_left common l [] = [].
Proof. induction l as [|x l IH]; [reflexivity|]. cbn. exact IH. Qed.
Lemma fold_common_differ a s l : (exists b, In [b] l /\ b <> a) -> (forall x, In x l -> exists b, x = [b]) -> s = [a] \/ s = [] -> fold_left common l s = [].
Proof.
  revert s. induction l as [|y l IH]; intros s [b [Hb N]] HL Hs; [destruct Hb|]. cbn [fold_left]. destruct Hs as [-> | ->]; [|apply fold_common_nil].
  destruct (HL y (or_introl eq_refl)) as [c ->]. cbn [common]. destruct (Nat.eqb_spec a c) as [<-|Nc]; [|apply fold_common_nil].
  apply IH; [|intros x Hx; apply HL; right; exact Hx|left; reflexivity]. destruct Hb as [Hb|Hb]; [injection Hb as ->; contradiction|]. exists b. split; assumption.
Qed.
Lemma rows_oshape {A} (r r' : list A) rows : In r rows -> In r' rows -> length r <> length r' -> oshape (rows_tree rows) = [length rows].
Proof.
  intros Hr Hr' N. unfold rows_tree. cbn [oshape]. rewrite map_length. f_equal. destruct rows as [|r0 rows]; [destruct Hr|]. cbn [map].
  assert (E : forall q : list A, oshape (Node (map Leaf q)) = [length q]) by (intros q; apply tshape_oshape, row_tshape). rewrite E, map_map.
  replace (map (fun x : list A => oshape (Node (map Leaf x))) rows) with (map (fun x : list A => [length x]) rows) by (apply map_ext; intros q; rewrite E; reflexivity).
  apply (fold_common_differ (length r0)); [| |left; reflexivity].
  - destruct (Nat.eq_dec (length r) (length r0)) as [Q|Q].
    + exists (length r'). split; [|lia]. apply in_map_iff. exists r'. split; [reflexivity|]. destruct Hr' as [<-|H]; [lia|exact H].
    + exists (length r). split; [|exact Q]. apply in_map_iff. exists r. split; [reflexivity|]. destruct Hr as [<-|H]; [lia|exact H].
  - intros x Hx. apply in_map_iff in Hx. destruct Hx as [q [<- _]]. eexists. reflexivity.
Qed.
Lemma rows_leaves {A} (rows : list (list A)) : leaves (rows_tree rows) = concat rows.
Proof. unfold rows_tree. rewrite leaves_node. induction rows as [|r rows IH]; [reflexivity|]. cbn [map flat_map concat]. rewrite IH, row_leaves. reflexivity. Qed.
Lemma rows_flatlen {A} strict (rows : list (list A)) : rows <> [] -> flatlen_at strict 1 (rows_tree rows) = Ok (length (concat rows)).
Proof.
  intros H. assert (G : exists n, flatlen_at strict 1 (rows_tree rows) = Ok n).
  { unfold rows_tree. rewrite flatlen_at_node. assert (C : forall s, In s (map (fun r => Node (map Leaf r)) rows) -> tshape s <> None).
    { intros s Hs. apply in_map_iff in Hs. destruct Hs as [r [<- _]]. rewrite row_tshape. discriminate. }
    assert (E : exists b, really1d strict (Node (map (fun r => Node (map Leaf r)) rows)) = Ok b) by (destruct strict; [apply really1d_strict, C|apply really1d_total]).
    destruct E as [b ->]. cbn [bind]. destruct b; [eexists; reflexivity|]. destruct (mapM_ok_all (flatlen_at strict 0) (map (fun r => Node (map Leaf r)) rows)) as [ns E].
    - intros s Hs. destruct strict; [apply flatlen_at_regular, C, Hs|eexists; apply flatlen_at_total].
    - rewrite E. eexists. reflexivity. }
  destruct G as [n E]. rewrite E. f_equal. rewrite <- rows_leaves. apply (flatlen_at_ok _ _ _ _ E).
Qed.
Theorem jshape_rows : forall A (rows : list (list A)) r r' strict, In r rows -> In r' rows -> length r <> length r' ->
  jshape strict (rows_tree rows) = Ok (if Nat.eqb (length (concat rows)) (length rows) then Regular [length rows] else Jagged [length rows] (map (fun q => Regular [length q]) rows)).
Proof.
  intros A rows r r' strict Hr Hr' N. unfold jshape. pose proof (rows_oshape r r' rows Hr Hr' N) as Eo. assert (Hne : rows <> []) by (intros ->; destruct Hr).
  pose proof (rows_flatlen strict rows Hne) as Fl. unfold rows_tree in *. rewrite jshape_at_node. cbv zeta. rewrite Eo. cbn [length]. unfold isjagged_array. rewrite Fl, Eo. cbn [bind firstn].
  replace (size_of_shape [length rows]) with (length rows) by (cbn; lia). rewrite Bool.negb_involutive, Nat.eqb_sym.
  destruct (Nat.eqb (length (concat rows)) (length rows)); [reflexivity|].
  assert (M : forall l : list (list A), mapM (jshape_at strict (1 - 1)) (map (fun r => Node (map Leaf r)) l) = Ok (map (fun q => Regular [length q]) l)).
  { induction l as [|q l IH]; [reflexivity|]. cbn [map mapM]. pose proof (jshape_regular A (Node (map Leaf q)) [length q] strict (row_tshape q)) as J. unfold jshape in J.
    change (1 - 1)%nat with 0%nat. rewrite J. cbn [bind]. change 0%nat with (1 - 1)%nat. rewrite IH. reflexivity. }
  rewrite M. reflexivity.
Qed.
Theorem jshape_refuted : exists rows : list (list nat), tshape (rows_tree rows) = None /\ jshape true (rows_tree rows) = Ok (Regular [2%nat])
  /\ jshape true (Node [Leaf 1; Leaf 2]%nat) = Ok (Regular [2%nat]) /\ rows = [[1; 2]; []]%nat.
Proof. exists [[1; 2]; []]%nat. repeat split; reflexivity. Qed.

(** isinteger *)
Lemma kind_int z : scalar_kind (SInt z) = KInt <-> (- 2 ^ 63 <= z < 2 ^ 63)%Z.
Proof.
  cbn [scalar_kind]. destruct (Z.leb_spec (- 2 ^ 63) z), (Z.ltb_spec z (2 ^ 63)), (Z.leb_spec 0 z), (Z.ltb_spec z (2 ^ 64)); cbn [andb]; split; try discriminate; try lia; reflexivity.
Qed.
Lemma kind_uint z : scalar_kind (SInt z) = KUint <-> (2 ^ 63 <= z < 2 ^ 64)%Z.
Proof.
  cbn [scalar_kind]. destruct (Z.leb_spec (- 2 ^ 63) z), (Z.ltb_spec z (2 ^ 63)), (Z.leb_spec 0 z), (Z.ltb_spec z (2 ^ 64)); cbn [andb]; split; try discriminate; try lia; reflexivity.
Qed.
Definition integral (k : kind) : bool := match k with KInt | KUint => true | _ => false end.
Lemma fold_kind l k : integral (fold_left (fun k s => promote k (scalar_kind s)) l k) = true <->
  (k = KInt /\ forall s, In s l -> scalar_kind s = KInt \/ scalar_kind s = KBool) \/ (k = KUint /\ forall s, In s l -> scalar_kind s = KUint \/ scalar_kind s = KBool)
  \/ (k = KBool /\ ((exists s, In s l /\ scalar_kind s = KInt) /\ (forall s, In s l -> scalar_kind s = KInt \/ scalar_kind s = KBool)
       \/ (exists s, In s l /\ scalar_kind s = KUint) /\ (forall s, In s l -> scalar_kind s = KUint \/ scalar_kind s = KBool))).
Proof.
  revert k. induction l as [|s l IH]; intros k; cbn [fold_left].
  - destruct k; cbn; split; try discriminate; try reflexivity; intros H; try (left; split; [reflexivity|intros s []]; fail); try (right; left; split; [reflexivity|intros s []]; fail);
      destruct H as [[H _]|[[H _]|[H [[[s [[] _]] _]|[[s [[] _]] _]]]]]; discriminate H.
  - rewrite IH. clear IH. split.
    + intros [[H1 H2]|[[H1 H2]|[H1 H2]]].
      * destruct k, (scalar_kind s) eqn:E; cbn in H1; try discriminate H1.
        -- right. right. split; [reflexivity|]. left. split; [exists s; split; [left; reflexivity|exact E]|]. intros u [<-|Hu]; [left; exact E|apply H2, Hu].
        -- left. split; [reflexivity|]. intros u [<-|Hu]; [right; exact E|apply H2, Hu].
        -- left. split; [reflexivity|]. intros u [<-|Hu]; [left; exact E|apply H2, Hu].
      * destruct k, (scalar_kind s) eqn:E; cbn in H1; try discriminate H1.
        -- right. right. split; [reflexivity|]. right. split; [exists s; split; [left; reflexivity|exact E]|]. intros u [<-|Hu]; [left; exact E|apply H2, Hu].
        -- right. left. split; [reflexivity|]. intros u [<-|Hu]; [right; exact E|apply H2, Hu].
        -- right. left. split; [reflexivity|]. intros u [<-|Hu]; [left; exact E|apply H2, Hu].
      * destruct k, (scalar_kind s) eqn:E; cbn in H1; try discriminate H1. right. right. split; [reflexivity|].
        destruct H2 as [[[u [Hu1 Hu2]] H2]|[[u [Hu1 Hu2]] H2]]; [left|right]; (split; [exists u; split; [right; exact Hu1|exact Hu2]|]); intros v [<-|Hv]; [right; exact E|apply H2, Hv|right; exact E|apply H2, Hv].
    + intros [[-> H]|[[-> H]|[-> H]]].
      * left. destruct (H s (or_introl eq_refl)) as [E|E]; rewrite E; (split; [reflexivity|]); intros u Hu; apply H; right; exact Hu.
      * right. left. destruct (H s (or_introl eq_refl)) as [E|E]; rewrite E; (split; [reflexivity|]); intros u Hu; apply H; right; exact Hu.
      * destruct H as [[[u [Hu1 Hu2]] H]|[[u [Hu1 Hu2]] H]].
        -- destruct (H s (or_introl eq_refl)) as [E|E]; rewrite E; cbn [promote kind_rank Nat.leb].
           ++ left. split; [reflexivity|]. intros v Hv. apply H. right. exact Hv.
           ++ right. right. split; [reflexivity|]. left. split; [|intros v Hv; apply H; right; exact Hv]. destruct Hu1 as [<-|Hu1]; [congruence|]. exists u. split; assumption.
        -- destruct (H s (or_introl eq_refl)) as [E|E]; rewrite E; cbn [promote kind_rank Nat.leb].
           ++ right. left. split; [reflexivity|]. intros v Hv. apply H. right. exact Hv.
           ++ right. right. split; [reflexivity|]. right. split; [|intros v Hv; apply H; right; exact Hv]. destruct Hu1 as [<-|Hu1]; [congruence|]. exists u. split; assumption.
Qed.
Lemma isinteger_integral v : isinteger v true = integral (arg_kind v).
Proof. unfold isinteger. rewrite Bool.andb_false_r. reflexivity. Qed.
Theorem isinteger_ints : forall zs, isinteger (ISeq (map SInt zs)) true = true <-> zs <> [] /\
  ((forall z, In z zs -> - 2 ^ 63 <= z < 2 ^ 63)%Z \/ (forall z, In z zs -> 2 ^ 63 <= z < 2 ^ 64)%Z).
Proof.
  intros zs. rewrite isinteger_integral. destruct zs as [|z zs]; [cbn; split; [discriminate|intros [H _]; contradiction]|]. cbn [map arg_kind]. rewrite fold_kind.
  assert (NB : forall y, scalar_kind (SInt y) <> KBool). { intros y. cbn [scalar_kind]. destruct (andb _ _); [discriminate|]. destruct (andb _ _); discriminate. }
  split.
  - intros [[H1 H2]|[[H1 H2]|[H1 _]]]; [| |exfalso; apply (NB z), H1]; (split; [discriminate|]); [left|right]; intros y [<-|Hy].
    + apply kind_int, H1.
    + destruct (H2 (SInt y) (in_map SInt _ _ Hy)) as [E|E]; [apply kind_int, E|exfalso; apply (NB y), E].
    + apply kind_uint, H1.
    + destruct (H2 (SInt y) (in_map SInt _ _ Hy)) as [E|E]; [apply kind_uint, E|exfalso; apply (NB y), E].
  - intros [_ [H|H]]; [left|right; left].
    + split; [apply kind_int, H; left; reflexivity|]. intros s Hs. apply in_map_iff in Hs. destruct Hs as [y [<- Hy]]. left. apply kind_int, H. right. exact Hy.
    + split; [apply kind_uint, H; left; reflexivity|]. intros s Hs. apply in_map_iff in Hs. destruct Hs as [y [<- Hy]]. left. apply kind_uint, H. right. exact Hy.
Qed.
Theorem isinteger_scalar : forall z, isinteger (IScalar (SInt z)) true = true <-> (- 2 ^ 63 <= z < 2 ^ 64)%Z.
Proof.
  intros z. rewrite isinteger_integral. cbn [arg_kind]. pose proof (kind_int z) as H1. pose proof (kind_uint z) as H2. split.
  - intros H. destruct (scalar_kind (SInt z)) eqn:E; try discriminate H; [pose proof (proj1 H1 eq_refl)|pose proof (proj1 H2 eq_refl)]; lia.
  - intros H. destruct (Z.lt_ge_cases z (2 ^ 63)) as [L|L]; [rewrite (proj2 H1) by lia|rewrite (proj2 H2) by lia]; reflexivity.
Qed.
(** Other entries. *)
Theorem isinteger_others : forall l it s, In s l -> (s = SFloat \/ s = SComplex \/ s = SStr \/ s = SNone) -> isinteger (ISeq l) it = false.
Proof.
  intros l it s Hs Hk. unfold isinteger. destruct (andb _ _); [reflexivity|]. destruct (match arg_kind (ISeq l) with KInt | KUint => true | _ => false end) eqn:E; [|reflexivity]. exfalso.
  assert (E' : integral (arg_kind (ISeq l)) = true) by exact E. destruct l as [|s0 l]; [destruct Hs|]. cbn [arg_kind] in E'. apply fold_kind in E'.
  assert (N : scalar_kind s <> KInt /\ scalar_kind s <> KUint /\ scalar_kind s <> KBool) by (destruct Hk as [->|[->|[->| ->]]]; repeat split; discriminate). destruct N as [N1 [N2 N3]].
  destruct Hs as [->|Hs]; [destruct E' as [[H _]|[[H _]|[H _]]]; contradiction|].
  destruct E' as [[_ H]|[[_ H]|[_ [[_ H]|[_ H]]]]]; destruct (H s Hs); contradiction.
Qed.
Theorem isinteger_booleans : forall n, isinteger (ISeq (repeat SBool n)) true = false /\ isinteger (IScalar SBool) true = false
  /\ isinteger (ISeq (repeat SBool n ++ [SInt 1])) true = true.
Proof.
  assert (B : forall n, fold_left (fun k s => promote k (scalar_kind s)) (repeat SBool n) KBool = KBool) by (induction n as [|n IH]; [reflexivity|exact IH]).
  intros n. rewrite !isinteger_integral. split; [|split; [reflexivity|]].
  - destruct n as [|n]; [reflexivity|]. cbn [repeat arg_kind]. change (scalar_kind SBool) with KBool. rewrite B. reflexivity.
  - destruct n as [|n]; [reflexivity|]. cbn [repeat app arg_kind]. change (scalar_kind SBool) with KBool. rewrite fold_left_app, B. reflexivity.
Qed.
Theorem isinteger_only_scalars : forall l k s, isinteger (ISeq l) false = false /\ isinteger (IArray k) false = false /\ isinteger (IScalar s) false = isinteger (IScalar s) true.
Proof. intros l k s. repeat split. destruct s; reflexivity. Qed.
Theorem isinteger_refuted : exists z y, isinteger (IScalar (SInt z)) true = false /\ isinteger (IScalar (SInt y)) true = true /\ isinteger (ISeq [SInt 0; SInt y]) true = false /\ z = (2 ^ 64)%Z /\ y = (2 ^ 63)%Z.
Proof. exists (2 ^ 64)%Z, (2 ^ 63)%Z. repeat split; reflexivity. Qed.

(** run_if *)
Lemma substring_split n m s : exists a b, s = (a ++ substring n m s ++ b)%string.
Proof.
  revert n m. induction s as [|c s IH]; intros n m.
  - exists ""%string, ""%string. destruct n, m; reflexivity.
  - destruct n as [|n].
    + destruct m as [|m]; [exists ""%string, (String c s); reflexivity|]. destruct (IH 0%nat m) as [a [b E]]. exists ""%string.
      assert (P : exists b', s = (substring 0 m s ++ b')%string).
      { clear. revert m. induction s as [|c s IH]; intros m; [exists ""%string; destruct m; reflexivity|]. destruct m as [|m]; [exists (String c s); reflexivity|].
        destruct (IH m) as [b E]. exists b. cbn. rewrite <- E. reflexivity. }
      destruct P as [b' P]. exists b'. cbn. rewrite <- P. reflexivity.
    + destruct (IH n m) as [a [b E]]. exists (String c a), b. cbn. rewrite <- E. reflexivity.
Qed.
Lemma substring_app a sub b : substring (String.length a) (String.length sub) (a ++ sub ++ b)%string = sub.
Proof.
  induction a as [|c a IH]; [|exact IH]. cbn [String.append String.length]. induction sub as [|c sub IH]; [destruct b; reflexivity|]. cbn. rewrite IH. reflexivity.
Qed.
Lemma slength_app a b : String.length (a ++ b) = (String.length a + String.length b)%nat.
Proof. induction a as [|c a IH]; [reflexivity|]. cbn. rewrite IH. reflexivity. Qed.
Lemma contains_iff sub s : contains sub s = true <-> occurs sub s.
Proof.
  unfold contains, occurs. destruct (String.index 0 sub s) as [n|] eqn:E; split; try discriminate; try reflexivity.
  - intros _. apply index_correct1 in E. rewrite <- E. apply substring_split.
  - intros [a [b H]]. exfalso. destruct (string_dec sub "") as [->|N]; [destruct s; discriminate E|].
    apply (index_correct3 0 (String.length a) sub s E N); [lia|]. rewrite H. apply substring_app.
Qed.
Lemma contains_not sub s : ~ occurs sub s -> contains sub s = false.
Proof. intros N. destruct (contains sub s) eqn:E; [exfalso; apply N, contains_iff, E|reflexivity]. Qed.
Theorem notebook_runs : forall cls other target, occurs "zmqshell" (lower cls) -> run_if_notebook (Some cls) other = Ok CallFunc
  /\ nbshow (Some cls) = Ok CallFunc /\ run_if_script (Some cls) other = Ok (if other then CallOther else CallNone)
  /\ run_if (Some cls) target other = Ok (if String.prefix target "notebook" then CallFunc else if other then CallOther else CallNone).
Proof.
  intros cls other target H. apply contains_iff in H. unfold nbshow, run_if_notebook, run_if_script, run_if, python_environment. rewrite H. repeat split.
Qed.
Theorem terminal_runs : forall cls other target, ~ occurs "zmqshell" (lower cls) -> occurs "terminal" (lower cls) ->
  run_if_notebook (Some cls) other = Ok (if other then CallOther else CallNone) /\ run_if_script (Some cls) other = Ok (if other then CallOther else CallNone) /\ nbshow (Some cls) = Ok CallOther
  /\ run_if (Some cls) target other = Ok (if String.prefix target "ipython" then CallFunc else if other then CallOther else CallNone).
Proof.
  intros cls other target H1 H2. apply contains_iff in H2. pose proof (contains_not _ _ H1) as H.
  unfold nbshow, run_if_notebook, run_if_script, run_if, python_environment. rewrite H, H2. repeat split.
Qed.
Theorem script_runs : forall other target, run_if_notebook None other = Ok (if other then CallOther else CallNone) /\ run_if_script None other = Ok CallFunc /\ nbshow None = Ok CallOther
  /\ run_if None target other = Ok (if String.prefix target "script" then CallFunc else if other then CallOther else CallNone).
Proof. intros other target. repeat split. Qed.
Theorem other_front_ends : forall cls target other, ~ occurs "zmqshell" (lower cls) -> ~ occurs "terminal" (lower cls) ->
  run_if (Some cls) target other = Err AttributeError /\ run_if_notebook (Some cls) other = Err AttributeError /\ run_if_script (Some cls) other = Err AttributeError /\ nbshow (Some cls) = Err AttributeError.
Proof.
  intros cls target other H1 H2. pose proof (contains_not _ _ H1) as E1. pose proof (contains_not _ _ H2) as E2.
  unfold nbshow, run_if_notebook, run_if_script, run_if, python_environment. rewrite E1, E2. repeat split.
Qed.
Theorem front_end_refuted : exists cls, run_if_notebook (Some cls) true = Err AttributeError /\ cls = "<class 'google.colab._shell.Shell'>"%string.
Proof. eexists. split; [|reflexivity]. vm_compute. reflexivity. Qed.

(** bins *)
Lemma diff_len l : length (diff l) = (length l - 1)%nat.
Proof. induction l as [|x l IH]; [reflexivity|]. destruct l as [|y l]; [reflexivity|]. change (S (length (diff (y :: l))) = length (y :: l) - 0)%nat. rewrite IH. cbn. lia. Qed.
Lemma diff_at l i : (S i < length l)%nat -> nth i (diff l) 0 = nth (S i) l 0 - nth i l 0.
Proof. revert i. induction l as [|x l IH]; intros i H; [cbn in H; lia|]. destruct l as [|y l]; [cbn in H; lia|]. destruct i as [|i]; [reflexivity|]. change (nth i (diff (y :: l)) 0 = nth (S i) (y :: l) 0 - nth i (y :: l) 0). apply IH. cbn in H |- *. lia. Qed.
Lemma flatten_vec n f : flatten_nd (mkA [n] f) = map (fun i => f [i]) (seq 0 n).
Proof.
  unfold flatten_nd. cbn [shp at_ all_idx map]. generalize 0%nat. induction n as [|n IH]; intros k; [reflexivity|]. cbn. f_equal. apply IH.
Qed.
Theorem bins_correct : forall a b num, (2 <= num)%Z -> exists xe xc dx, bins a b num = Ok (xe, xc, dx) /\ length xe = Z.to_nat num /\ uniform xe a b
  /\ length xc = (Z.to_nat num - 1)%nat /\ length dx = (Z.to_nat num - 1)%nat
  /\ (forall i, (S i < Z.to_nat num)%nat -> nth i xc 0 = (nth i xe 0 + nth (S i) xe 0) / 2
        /\ nth i dx 0 = nth (S i) xe 0 - nth i xe 0 /\ nth i dx 0 = (b - a) / IZR (num - 1))
  /\ lsum dx = b - a.
Proof.
  intros a b num Hn. unfold bins. destruct (Z.ltb_spec num 0); [lia|]. set (n := Z.to_nat num). assert (Hn2 : (2 <= n)%nat) by (unfold n; lia). set (xe := linspace a b n).
  assert (Le : length xe = n) by apply linspace_length. destruct (midpoints_vec xe ltac:(lia)) as [r [_ [Em [Es [Er _]]]]].
  unfold vec in Em. rewrite Em. cbn [bind]. exists xe, (flatten_nd r), (diff xe). destruct r as [sh f]. cbn [shp at_] in *. subst sh. rewrite Le, flatten_vec.
  assert (D : forall i, (S i < n)%nat -> nth i (diff xe) 0 = (b - a) / IZR (num - 1)).
  { intros i Hi. rewrite diff_at by lia. unfold xe. rewrite !linspace_nth by lia. replace (IZR (num - 1)) with (INR (n - 1)) by (rewrite INR_IZR_INZ; f_equal; unfold n; lia).
    assert (INR (n - 1) <> 0) by (apply not_0_INR; lia). rewrite S_INR. field. assumption. }
  split; [reflexivity|]. split; [reflexivity|]. split; [apply linspace_uniform; exact Hn2|]. split; [rewrite map_length, seq_length; reflexivity|]. split; [rewrite diff_len, Le; reflexivity|]. split.
  - intros i Hi. split; [|split; [apply diff_at; lia|apply D, Hi]]. rewrite (nth_indep _ 0 (f [0%nat])) by (rewrite map_length, seq_length; lia).
    rewrite (map_nth (fun i => f [i]) (seq 0 (n - 1)) 0%nat i), seq_nth by lia. cbn [plus]. apply Er. lia.
  - assert (T : forall l c, l <> [] -> lsum (diff l) = last l c - hd c l).
    { clear. intros l c. induction l as [|x l IH]; intros N; [contradiction|]. destruct l as [|y l]; [cbn; ring|]. change (lsum (diff (x :: y :: l))) with ((y - x) + lsum (diff (y :: l))).
      rewrite IH by discriminate. change (last (x :: y :: l) c) with (last (y :: l) c). cbn [hd]. ring. }
    assert (N : xe <> []) by (intros E; rewrite E in Le; cbn in Le; lia). rewrite (T xe 0 N). destruct (linspace_uniform a b n Hn2) as [U1 [U2 _]]. fold xe in U1, U2.
    rewrite Le in U2. assert (L : last xe 0 = nth (n - 1) xe 0). { rewrite <- Le. clear. induction xe as [|x l IH]; [reflexivity|]. destruct l as [|y l]; [reflexivity|].
      change (last (x :: y :: l) 0) with (last (y :: l) 0). rewrite IH. cbn [length]. replace (S (S (length l)) - 1)%nat with (S (S (length l) - 1)) by lia. reflexivity. }
    rewrite L, U2. destruct xe as [|x l]; [contradiction|]. cbn [hd] in *. cbn [nth] in U1. rewrite U1. reflexivity.
Qed.
Theorem bins_short : forall a b num, ((0 <= num < 2)%Z -> bins a b num = Err RuntimeError) /\ ((num < 0)%Z -> bins a b num = Err ValueError).
Proof.
  intros a b num. split; intros H; unfold bins; [destruct (Z.ltb_spec num 0); [lia|]|destruct (Z.ltb_spec num 0); [reflexivity|lia]].
  unfold midpoints. cbn [midpoints_loop]. unfold midpoints_1d, norm_axis. cbn [shp length]. cbn. rewrite linspace_length. destruct (Nat.leb_spec (Z.to_nat num) 1); [reflexivity|lia].
Qed.

(** minmax with previous extrema, limits and a stretch together. *)
Lemma minmax_ends data lo hi : min_of data lo -> max_of data hi -> exists x l, data = x :: l /\ vmin x l = lo /\ vmax x l = hi.
Proof.
  intros Hlo Hhi. destruct data as [|x l]; [destruct Hlo as [[] _]|]. exists x, l. split; [reflexivity|].
  split; [apply (min_of_unique _ _ _ (vmin_spec x l) Hlo)|apply (max_of_unique _ _ _ (vmax_spec x l) Hhi)].
Qed.
Theorem minmax_order : forall data lo hi s pl ph ll lh, min_of data lo -> max_of data hi ->
  minmax data false (Some (Some pl, Some ph)) (StScalar s) StNone (Some (Some ll, Some lh))
    = Ok (Some (Some (Rmax ll (Rmin pl (lo - s * (hi - lo) / 2))), Some (Rmin lh (Rmax ph (hi + s * (hi - lo) / 2)))))
  /\ minmax data false (Some (Some pl, Some ph)) StNone StNone (Some (Some ll, Some lh)) = Ok (Some (Some (Rmax ll (Rmin pl lo)), Some (Rmin lh (Rmax ph hi)))).
Proof.
  intros data lo hi s pl ph ll lh Hlo Hhi. destruct (minmax_ends data lo hi Hlo Hhi) as (x & l & -> & E1 & E2). unfold minmax. rewrite E1, E2. cbn [bind stretch_pair stretch_range clip_prev clip_limit fst snd].
  rewrite !(Rmax_comm ll), !(Rmin_comm pl), !(Rmin_comm lh), !(Rmax_comm ph). split; [|reflexivity].
  replace ((lo + hi) / 2 - (1 + s) * ((lo + hi) / 2 - lo)) with (lo - s * (hi - lo) / 2) by field.
  replace ((lo + hi) / 2 + (1 + s) * (hi - (lo + hi) / 2)) with (hi + s * (hi - lo) / 2) by field. reflexivity.
Qed.
Theorem minmax_one_sided : forall data lo hi pl lh, min_of data lo -> max_of data hi ->
  minmax data false (Some (Some pl, None)) StNone StNone (Some (None, Some lh)) = Ok (Some (Some (Rmin pl lo), Some (Rmin lh hi)))
  /\ minmax data false (Some (None, Some pl)) StNone StNone (Some (Some lh, None)) = Ok (Some (Some (Rmax lh lo), Some (Rmax pl hi))).
Proof.
  intros data lo hi pl lh Hlo Hhi. destruct (minmax_ends data lo hi Hlo Hhi) as (x & l & -> & E1 & E2). unfold minmax. rewrite E1, E2. cbn [bind clip_prev clip_limit fst snd].
  rewrite (Rmin_comm pl), (Rmin_comm lh), (Rmax_comm lh), (Rmax_comm pl). split; reflexivity.
Qed.

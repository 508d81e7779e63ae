(** Labels, ticks and figures of corner plots. *)
From Coq Require Import String ZArith Lia.
From Verif Require Import Base ModelCornerInit SpecCornerInit.
Open Scope R_scope.
Notation length := List.length.

Lemma item_ok {A} (l : list A) k (d : A) : (k < length l)%nat -> item l k = Ok (nth k l d).
Proof. intros H. unfold item. rewrite (nth_error_nth' l d H). reflexivity. Qed.
Lemma item_err {A} (l : list A) k : (length l <= k)%nat -> item l k = Err IndexError.
Proof. intros H. unfold item. apply nth_error_None in H. rewrite H. reflexivity. Qed.
Lemma mapM_all {A B} (f : A -> res B) (l : list A) : (forall x, In x l -> exists y, f x = Ok y) -> exists r, mapM f l = Ok r.
Proof.
  induction l as [|a l IH]; intros H; [exists []; reflexivity|]. destruct (H a (or_introl eq_refl)) as [y Ey]. destruct IH as [r Er]; [intros x Hx; apply H; right; exact Hx|].
  exists (y :: r). cbn [mapM]. rewrite Ey. cbn [bind]. rewrite Er. reflexivity.
Qed.
Lemma mapM_each {A B} (f : A -> res B) (l : list A) r : mapM f l = Ok r -> forall x, In x l -> exists y, f x = Ok y.
Proof.
  revert r. induction l as [|a l IH]; intros r E x Hx; [contradiction|]. cbn [mapM] in E. destruct (f a) as [y|] eqn:Ea; [|discriminate E]. cbn [bind] in E.
  destruct (mapM f l) as [r'|] eqn:El; [|discriminate E]. destruct Hx as [<-|Hx]; [exists y; exact Ea|exact (IH r' eq_refl x Hx)].
Qed.
Lemma mapM_fails {A B} (f : A -> res B) (l : list A) e : (forall x, In x l -> (exists y, f x = Ok y) \/ f x = Err e) -> (exists x, In x l /\ f x = Err e) -> mapM f l = Err e.
Proof.
  induction l as [|a l IH]; intros H (x & Hx & Ex); [contradiction|]. cbn [mapM]. destruct (H a (or_introl eq_refl)) as [[y Ey]|Ea]; [|rewrite Ea; reflexivity].
  rewrite Ey. cbn [bind]. destruct Hx as [<-|Hx]; [rewrite Ex in Ey; discriminate|]. rewrite IH; [reflexivity|intros z Hz; apply H; right; exact Hz|exists x; split; assumption].
Qed.
Lemma in_cells dim i j : In (i, j) (cells dim) <-> (i < dim /\ j < dim)%nat.
Proof. unfold cells. rewrite in_prod_iff, !in_seq. lia. Qed.

(** What a panel looks like after the loop. *)
Lemma decorate_ok size rotate origin ls ts i j f0 : (i < length ls)%nat -> (i < length ts)%nat -> (j <= i)%nat ->
  exists f, decorate size rotate origin ls ts i j f0 = Ok f
   /\ f_vis f = f_vis f0 /\ f_grid f = true
   /\ f_xlabel f = (if Nat.eqb i (size - 1) then if andb rotate (Nat.eqb j (size - 1)) then f_xlabel f0 else nth j ls EmptyString else EmptyString)
   /\ f_ylabel f = (if Nat.eqb j 0 then if Nat.eqb i 0 then (if andb (Nat.eqb i (size - 1)) rotate then nth 0 ls EmptyString else f_ylabel f0) else nth i ls EmptyString else EmptyString)
   /\ f_xticks f = (if andb (Nat.eqb i j) (andb (Nat.eqb i (size - 1)) rotate) then f_xticks f0 else match nth j ts None with Some t => Some t | None => f_xticks f0 end)
   /\ f_yticks f = (if andb (Nat.eqb i j) (negb (andb (Nat.eqb i (size - 1)) rotate)) then f_yticks f0 else match nth i ts None with Some t => Some t | None => f_yticks f0 end).
Proof.
  intros Hl Ht Hij. assert (Hj : (j < length ls)%nat) by lia. assert (Hjt : (j < length ts)%nat) by lia. destruct origin as [ov oh]. unfold decorate.
  destruct (Nat.ltb_spec i j) as [H|_]; [lia|]. rewrite (item_ok ls j EmptyString Hj), (item_ok ls i EmptyString Hl), (item_ok ts j None Hjt), (item_ok ts i None Ht). cbn [bind fst snd].
  destruct (Nat.eqb_spec i j) as [E1|E1]; [subst j|]; destruct (Nat.eqb_spec i (size - 1)) as [E2|E2]; destruct (Nat.eqb_spec i 0) as [E3|E3]; try destruct (Nat.eqb_spec j (size - 1)) as [E4|E4]; try destruct (Nat.eqb_spec j 0) as [E5|E5];
    try lia; destruct rotate, ov, oh; cbn [andb negb bind];
    (eexists; split; [reflexivity|]); unfold with_xticks, with_yticks; try (destruct (nth i ts None)); try (destruct (nth j ts None)); cbn; subst; repeat split; first [reflexivity|rewrite E3; reflexivity].
Qed.
Lemma decorate_hidden size rotate origin ls ts i j f0 : (i < j)%nat -> decorate size rotate origin ls ts i j f0 = Ok (with_vis false f0).
Proof. intros H. unfold decorate. apply Nat.ltb_lt in H. rewrite H. reflexivity. Qed.
Lemma decorate_index size rotate origin ls ts i j f0 : (exists f, decorate size rotate origin ls ts i j f0 = Ok f) \/ decorate size rotate origin ls ts i j f0 = Err IndexError.
Proof.
  unfold decorate. destruct (Nat.ltb i j); [left; eauto|]. unfold item.
  destruct (Nat.eqb i (size - 1)), (Nat.eqb j 0), (Nat.eqb i 0), (Nat.eqb i j); cbn [negb]; destruct (nth_error ls j); cbn [bind]; try (right; reflexivity); destruct (nth_error ls i); cbn [bind]; try (right; reflexivity);
    destruct (nth_error ts j); cbn [bind]; try (right; reflexivity); destruct (nth_error ts i); cbn [bind]; try (right; reflexivity); left; eauto.
Qed.

Definition label_list (size : nat) (labels : option (list string)) : list string := match labels with None => repeat EmptyString size | Some l => l end.
Definition tick_list (size : nat) (ticks : option (list (option (list R)))) : list (option (list R)) := match ticks with None => repeat None size | Some l => l end.
Lemma enough_labels size labels : enough size labels <-> (size <= length (label_list size labels))%nat.
Proof. destruct labels; cbn; [tauto|]. rewrite repeat_length. split; [intros _; lia|tauto]. Qed.
Lemma enough_ticks size ticks : enough size ticks <-> (size <= length (tick_list size ticks))%nat.
Proof. destruct ticks; cbn; [tauto|]. rewrite repeat_length. split; [intros _; lia|tauto]. Qed.

Lemma init_total size dim rotate origin labels ticks fs : (dim <= length (label_list size labels))%nat -> (dim <= length (tick_list size ticks))%nat ->
  exists fs', init_faces size dim rotate origin labels ticks fs = Ok fs'
   /\ forall i j, (i < dim)%nat -> (j < dim)%nat -> decorate size rotate origin (label_list size labels) (tick_list size ticks) i j (fs i j) = Ok (fs' i j).
Proof.
  intros Hl Ht. unfold init_faces. fold (label_list size labels). fold (tick_list size ticks).
  assert (H : forall i j, (i < dim)%nat -> (j < dim)%nat -> exists f, decorate size rotate origin (label_list size labels) (tick_list size ticks) i j (fs i j) = Ok f).
  { intros i j Hi Hj. destruct (Nat.lt_ge_cases i j) as [Hij|Hij]; [rewrite (decorate_hidden _ _ _ _ _ _ _ _ Hij); eauto|].
    destruct (decorate_ok size rotate origin (label_list size labels) (tick_list size ticks) i j (fs i j)) as (f & E & _); [lia|lia|lia|]. eauto. }
  destruct (mapM_all (fun c => decorate size rotate origin (label_list size labels) (tick_list size ticks) (fst c) (snd c) (fs (fst c) (snd c))) (cells dim)) as [r Er].
  { intros [i j] Hin. apply in_cells in Hin. cbn [fst snd]. apply H; tauto. }
  rewrite Er. cbn [bind]. eexists. split; [reflexivity|]. intros i j Hi Hj. cbv beta. rewrite (proj2 (Nat.ltb_lt i dim) Hi), (proj2 (Nat.ltb_lt j dim) Hj). cbn [andb].
  destruct (H i j Hi Hj) as [f E]. rewrite E. reflexivity.
Qed.
Lemma init_short size rotate origin labels ticks fs : (1 <= size)%nat -> (length (label_list size labels) < size \/ length (tick_list size ticks) < size)%nat ->
  init_faces size size rotate origin labels ticks fs = Err IndexError.
Proof.
  intros Hs H. unfold init_faces. fold (label_list size labels). fold (tick_list size ticks).
  rewrite (mapM_fails _ _ IndexError); [reflexivity| |].
  - intros [i j] _. apply decorate_index.
  - exists ((size - 1)%nat, (size - 1)%nat). split; [apply in_cells; lia|]. cbn [fst snd]. unfold decorate. rewrite Nat.ltb_irrefl, !Nat.eqb_refl.
    set (f0 := fs _ _). clearbody f0. destruct (Nat.lt_ge_cases (size - 1) (length (label_list size labels))) as [Hl|Hl].
    + rewrite (item_ok _ _ EmptyString Hl). cbn [bind].
      destruct (if Nat.eqb (size - 1) 0 then _ else _) as [f3|e] eqn:E3.
      * cbn [bind]. rewrite item_err by lia. reflexivity.
      * exfalso. destruct (Nat.eqb_spec (size - 1) 0) as [E|E]; cbn in E3; discriminate.
    + rewrite (item_err _ _ Hl). reflexivity.
Qed.
Lemma init_larger size dim rotate origin labels ticks fs : (size < dim)%nat -> (length (label_list size labels) = size \/ length (tick_list size ticks) = size) ->
  init_faces size dim rotate origin labels ticks fs = Err IndexError.
Proof.
  intros Hs H. unfold init_faces. fold (label_list size labels). fold (tick_list size ticks).
  rewrite (mapM_fails _ _ IndexError); [reflexivity| |].
  - intros [i j] _. apply decorate_index.
  - exists (size, 0%nat). split; [apply in_cells; lia|]. cbn [fst snd]. set (f0 := fs _ _). clearbody f0. unfold decorate. cbn [Nat.ltb Nat.leb].
    destruct size as [|m].
    + cbn. destruct H as [H|H]; [destruct (label_list 0 labels); [reflexivity|discriminate]|]. destruct (label_list 0 labels); [reflexivity|]. cbn. destruct (tick_list 0 ticks); [|discriminate]. reflexivity.
    + destruct (Nat.eqb_spec (S m) (S m - 1)) as [E|_]; [lia|]. cbn [bind Nat.eqb negb]. destruct (nth_error (label_list (S m) labels) (S m)) as [l|] eqn:El; unfold item at 1; rewrite El; [|reflexivity].
      cbn [bind]. destruct H as [H|H]; [apply nth_error_None in H as _ || idtac; assert (Hx : nth_error (label_list (S m) labels) (S m) = None) by (apply nth_error_None; lia); rewrite Hx in El; discriminate|].
      destruct (item (tick_list (S m) ticks) 0) as [tx|e] eqn:Etx; [cbn [bind]; rewrite item_err by lia; reflexivity|]. unfold item in Etx. destruct (nth_error (tick_list (S m) ticks) 0) eqn:E0; [discriminate|].
      injection Etx as <-. reflexivity.
Qed.
Lemma init_iff size rotate origin labels ticks fs : (1 <= size)%nat ->
  (enough size labels /\ enough size ticks -> exists fs', init_faces size size rotate origin labels ticks fs = Ok fs')
  /\ (~ (enough size labels /\ enough size ticks) -> init_faces size size rotate origin labels ticks fs = Err IndexError).
Proof.
  intros Hs. rewrite enough_labels, enough_ticks. split.
  - intros [Hl Ht]. destruct (init_total size size rotate origin labels ticks fs Hl Ht) as (fs' & E & _). eauto.
  - intros H. apply init_short; [exact Hs|lia].
Qed.
Lemma init_inv size rotate origin labels ticks fs fs' : (1 <= size)%nat -> init_faces size size rotate origin labels ticks fs = Ok fs' ->
  forall i j, (i < size)%nat -> (j < size)%nat -> decorate size rotate origin (label_list size labels) (tick_list size ticks) i j (fs i j) = Ok (fs' i j)
   /\ (i < length (label_list size labels))%nat /\ (i < length (tick_list size ticks))%nat.
Proof.
  intros Hs E i j Hi Hj. destruct (Nat.lt_ge_cases (length (label_list size labels)) size) as [Hl|Hl]; [rewrite init_short in E by (try exact Hs; lia); discriminate|].
  destruct (Nat.lt_ge_cases (length (tick_list size ticks)) size) as [Ht|Ht]; [rewrite init_short in E by (try exact Hs; lia); discriminate|].
  destruct (init_total size size rotate origin labels ticks fs Hl Ht) as (fs2 & E2 & H). rewrite E in E2. injection E2 as <-. split; [exact (H i j Hi Hj)|lia].
Qed.
Lemma corner_inv p size rotate origin labels ticks fig figsize grid s fs p' : corner_faces p size rotate origin labels ticks fig figsize grid s = (Ok fs, p') ->
  (1 <= size)%nat /\ exists b, init_faces size size rotate origin labels ticks (fun _ _ => new_face b) = Ok fs.
Proof.
  unfold corner_faces. destruct (figax p size fig figsize grid s) as [[[f st]|e] p1] eqn:E; intros H; [|discriminate]. injection H as H _. split; [|eauto].
  unfold figax in E. destruct (match fig with None => _ | Some _ => _ end) as [f' p2]. destruct size; [|lia]. destruct fig, figsize; cbn in E; discriminate.
Qed.
Lemma label_of size labels k : nth k (label_list size labels) EmptyString = match labels with None => EmptyString | Some l => nth k l EmptyString end.
Proof. destruct labels; [reflexivity|]. cbn. apply nth_repeat. Qed.
Lemma tick_of size ticks k : nth k (tick_list size ticks) None = match ticks with None => None | Some l => nth k l None end.
Proof. destruct ticks; [reflexivity|]. cbn. apply nth_repeat. Qed.

Section panels.
Variables (p : pyplot) (size : nat) (rotate : bool) (origin : bool * bool) (labels : option (list string)) (ticks : option (list (option (list R)))).
Variables (fig : option nat) (figsize : option sizearg) (grid : gridarg) (s : spacing) (fs : nat -> nat -> face) (p' : pyplot).
Hypothesis HF : corner_faces p size rotate origin labels ticks fig figsize grid s = (Ok fs, p').
Let lab (k : nat) := match labels with None => EmptyString | Some l => nth k l EmptyString end.
Let tick (k : nat) := match ticks with None => None | Some l => nth k l None end.
Lemma face_of i j : panel_of size i j ->
   f_vis (fs i j) = true /\ f_grid (fs i j) = true
   /\ f_xlabel (fs i j) = (if Nat.eqb i (size - 1) then if andb rotate (Nat.eqb j (size - 1)) then EmptyString else lab j else EmptyString)
   /\ f_ylabel (fs i j) = (if Nat.eqb j 0 then if Nat.eqb i 0 then (if andb (Nat.eqb i (size - 1)) rotate then lab 0 else EmptyString) else lab i else EmptyString)
   /\ f_xticks (fs i j) = (if andb (Nat.eqb i j) (andb (Nat.eqb i (size - 1)) rotate) then None else tick j)
   /\ f_yticks (fs i j) = (if andb (Nat.eqb i j) (negb (andb (Nat.eqb i (size - 1)) rotate)) then None else tick i).
Proof.
  intros [Hji Hi]. destruct (corner_inv _ _ _ _ _ _ _ _ _ _ _ _ HF) as [Hs [b E]]. destruct (init_inv _ _ _ _ _ _ _ Hs E i j Hi ltac:(lia)) as (D & Hl & Ht).
  destruct (decorate_ok size rotate origin _ _ i j (new_face b) Hl Ht Hji) as (f & D' & H1 & H2 & H3 & H4 & H5 & H6). rewrite D in D'. injection D' as <-.
  rewrite H1, H2, H3, H4, H5, H6, !label_of, !tick_of. fold (lab i) (lab j) (lab 0) (tick i) (tick j). cbn.
  do 4 (split; [reflexivity|]). split.
  - destruct (andb (Nat.eqb i j) (andb (Nat.eqb i (size - 1)) rotate)); [reflexivity|destruct (tick j); reflexivity].
  - destruct (andb (Nat.eqb i j) (negb (andb (Nat.eqb i (size - 1)) rotate))); [reflexivity|destruct (tick i); reflexivity].
Qed.
Lemma labels_true i j : panel_of size i j ->
  (f_xlabel (fs i j) = EmptyString \/ exists k, param_x size rotate i j k /\ f_xlabel (fs i j) = lab k)
  /\ (f_ylabel (fs i j) = EmptyString \/ exists k, param_y size rotate i j k /\ f_ylabel (fs i j) = lab k).
Proof.
  intros H. destruct (face_of i j H) as (_ & _ & H3 & H4 & _). destruct H as [Hji Hi]. rewrite H3, H4. unfold param_x, param_y. split.
  - destruct (Nat.eqb_spec i (size - 1)) as [E1|E1]; [|left; reflexivity]. destruct (andb rotate (Nat.eqb j (size - 1))) eqn:E2; [left; reflexivity|]. right. exists j. split; [|reflexivity]. split; [reflexivity|].
    intros (Hr & Hij & Hj). rewrite Hr in E2. cbn in E2. apply Nat.eqb_neq in E2. lia.
  - destruct (Nat.eqb_spec j 0) as [E1|E1]; [|left; reflexivity]. destruct (Nat.eqb_spec i 0) as [E2|E2]; [|right; exists i; split; [split; [reflexivity|left; lia]|reflexivity]].
    destruct (andb (Nat.eqb i (size - 1)) rotate) eqn:E3; [|left; reflexivity]. apply andb_prop in E3. destruct E3 as [E3 E4]. apply Nat.eqb_eq in E3. right. exists 0%nat. split; [|reflexivity]. split; [lia|]. right. split; [exact E4|lia].
Qed.
Lemma labels_all k : (k < size)%nat -> exists i j, panel_of size i j /\ f_vis (fs i j) = true
  /\ (param_x size rotate i j k /\ f_xlabel (fs i j) = lab k \/ param_y size rotate i j k /\ f_ylabel (fs i j) = lab k).
Proof.
  intros Hk. destruct (Nat.eq_dec k 0) as [->|Hk0].
  - destruct (Nat.eq_dec size 1) as [E|E].
    + exists 0%nat, 0%nat. destruct (face_of 0 0) as (H1 & _ & H3 & H4 & _); [split; lia|]. split; [split; lia|]. split; [exact H1|]. rewrite H3, H4. rewrite E. cbn. unfold param_x, param_y. destruct rotate; cbn.
      * right. split; [split; [reflexivity|right; repeat split; lia]|reflexivity].
      * left. split; [split; [reflexivity|intros [Hx _]; discriminate]|reflexivity].
    + exists (size - 1)%nat, 0%nat. destruct (face_of (size - 1) 0) as (H1 & _ & H3 & _); [split; lia|]. split; [split; lia|]. split; [exact H1|]. left. rewrite H3, Nat.eqb_refl. destruct (Nat.eqb_spec 0 (size - 1)) as [E1|E1]; [lia|].
      rewrite Bool.andb_false_r. split; [|reflexivity]. split; [reflexivity|]. intros (_ & Hx & _). lia.
  - exists k, 0%nat. destruct (face_of k 0) as (H1 & _ & _ & H4 & _); [split; lia|]. split; [split; lia|]. split; [exact H1|]. right. rewrite H4. cbn. destruct (Nat.eqb_spec k 0) as [E|_]; [contradiction|]. split; [|reflexivity]. split; [reflexivity|left; lia].
Qed.
Lemma ticks_of i j : panel_of size i j ->
  (forall k, param_x size rotate i j k -> f_xticks (fs i j) = tick k) /\ (forall k, param_y size rotate i j k -> f_yticks (fs i j) = tick k)
  /\ ((forall k, ~ param_x size rotate i j k) -> f_xticks (fs i j) = None) /\ ((forall k, ~ param_y size rotate i j k) -> f_yticks (fs i j) = None).
Proof.
  intros H. destruct (face_of i j H) as (_ & _ & _ & _ & H5 & H6). destruct H as [Hji Hi]. rewrite H5, H6. unfold param_x, param_y. repeat split.
  - intros k [-> Hn]. destruct (Nat.eqb_spec i j) as [->|E]; [|reflexivity]. destruct (Nat.eqb_spec j (size - 1)) as [E|E]; [|reflexivity]. destruct rotate; [|reflexivity]. exfalso. apply Hn. repeat split; lia.
  - intros k [-> [Hj|(Hr & Hij & Hj)]].
    + destruct (Nat.eqb_spec i j) as [E|_]; [lia|reflexivity].
    + rewrite Hr, (proj2 (Nat.eqb_eq i (size - 1))) by lia. cbn. rewrite Bool.andb_false_r. reflexivity.
  - intros Hn. destruct (andb (Nat.eqb i j) (andb (Nat.eqb i (size - 1)) rotate)) eqn:E; [reflexivity|]. exfalso. apply (Hn j). split; [reflexivity|]. intros (Hr & Hij & Hj). rewrite Hr, Hij, Nat.eqb_refl, (proj2 (Nat.eqb_eq j (size - 1))) in E by lia. discriminate.
  - intros Hn. destruct (andb (Nat.eqb i j) (negb (andb (Nat.eqb i (size - 1)) rotate))) eqn:E; [reflexivity|]. exfalso. apply (Hn i). split; [reflexivity|]. destruct (Nat.eqb_spec i j) as [Eij|Eij]; [|left; lia].
    right. cbn in E. apply Bool.negb_false_iff, andb_prop in E. destruct E as [E1 E2]. apply Nat.eqb_eq in E1. repeat split; [exact E2|exact Eij|lia].
Qed.
Lemma grid_always i j : panel_of size i j -> f_grid (fs i j) = true.
Proof. intros H. apply (face_of i j H). Qed.
End panels.

(** * Sides *)
Lemma decorate_sides size rotate origin ls ts i j f0 f : (j <= i)%nat -> decorate size rotate origin ls ts i j f0 = Ok f ->
  f_top f = (if andb (Nat.eqb i (size - 1)) (fst origin) then true else f_top f0)
  /\ (i <> j -> f_right f = if andb (Nat.eqb j 0) (snd origin) then true else f_right f0).
Proof.
  intros Hij. destruct origin as [ov oh]. unfold decorate. destruct (Nat.ltb_spec i j) as [H|_]; [lia|]. cbn [fst snd].
  destruct (Nat.eqb_spec i j) as [E1|E1]; destruct (Nat.eqb i (size - 1)); destruct (Nat.eqb j 0), (Nat.eqb i 0); unfold item; cbn [negb];
    repeat (match goal with |- context [nth_error ?l ?k] => destruct (nth_error l k) as [?|]; cbn [bind]; try discriminate end);
    destruct rotate, ov, oh; cbn [andb negb bind]; intros E; injection E as <-; unfold with_xticks, with_yticks;
    repeat (match goal with |- context [match ?o with None => _ | Some _ => _ end] => is_var o; destruct o end); cbn;
    (split; [repeat match goal with |- context [if ?b then _ else _] => destruct b end; reflexivity|intros; try contradiction; repeat match goal with |- context [if ?b then _ else _] => destruct b end; reflexivity]).
Qed.
Lemma sides_outer p size rotate origin labels ticks fig figsize grid s fs p' : corner_faces p size rotate origin labels ticks fig figsize grid s = (Ok fs, p') ->
  (forall j, (j < size)%nat -> f_top (fs (size - 1)%nat j) = fst origin) /\ (forall i, (0 < i < size)%nat -> f_right (fs i 0%nat) = snd origin).
Proof.
  intros HF. destruct (corner_inv _ _ _ _ _ _ _ _ _ _ _ _ HF) as [Hs [b E]]. split.
  - intros j Hj. destruct (init_inv _ _ _ _ _ _ _ Hs E (size - 1)%nat j ltac:(lia) Hj) as (D & _). destruct (decorate_sides _ _ _ _ _ (size - 1)%nat j _ _ ltac:(lia) D) as [H _]. rewrite H, Nat.eqb_refl. destruct (fst origin); reflexivity.
  - intros i Hi. destruct (init_inv _ _ _ _ _ _ _ Hs E i 0%nat ltac:(lia) ltac:(lia)) as (D & _). destruct (decorate_sides _ _ _ _ _ i 0%nat _ _ ltac:(lia) D) as [_ H]. rewrite H by lia. destruct (snd origin); reflexivity.
Qed.
(** The panels of the diagonal. *)
Lemma decorate_diagonal size rotate origin ls ts i f0 f : decorate size rotate origin ls ts i i f0 = Ok f -> f_right f = andb (negb (Nat.eqb i 0)) (negb (snd origin)).
Proof.
  unfold decorate. rewrite (proj2 (Nat.ltb_ge i i)) by lia. intros H. cbv zeta in H. destruct (if Nat.eqb i (size - 1) then _ else _) as [f2|]; [|discriminate H]. cbn [bind] in H.
  destruct (if Nat.eqb i 0 then _ else _) as [f3|]; [|discriminate H]. cbn [bind] in H. rewrite Nat.eqb_refl in H. destruct (item ts i) as [t|]; [|discriminate H]. cbn [bind] in H. injection H as <-.
  destruct (andb (negb (Nat.eqb i 0)) (negb (snd origin))); destruct (andb (Nat.eqb i (size - 1)) rotate), t; reflexivity.
Qed.
Lemma sides_diagonal p size rotate origin labels ticks fig figsize grid s fs p' : corner_faces p size rotate origin labels ticks fig figsize grid s = (Ok fs, p') ->
  f_right (fs 0%nat 0%nat) = false /\ forall i, (0 < i < size)%nat -> f_right (fs i i) = negb (snd origin).
Proof.
  intros HF. destruct (corner_inv _ _ _ _ _ _ _ _ _ _ _ _ HF) as [Hs [b E]].
  assert (H : forall i, (i < size)%nat -> f_right (fs i i) = andb (negb (Nat.eqb i 0)) (negb (snd origin))).
  { intros i Hi. destruct (init_inv _ _ _ _ _ _ _ Hs E i i Hi Hi) as (D & _). exact (decorate_diagonal _ _ _ _ _ _ _ _ D). }
  split; [rewrite H by lia; reflexivity|]. intros i Hi. rewrite H by lia. destruct (Nat.eqb_spec i 0); [lia|reflexivity].
Qed.
Lemma hidden_above p size rotate origin labels ticks fig figsize grid s fs p' i j : corner_faces p size rotate origin labels ticks fig figsize grid s = (Ok fs, p') ->
  (i < size)%nat -> (j < size)%nat -> f_vis (fs i j) = true <-> (j <= i)%nat.
Proof.
  intros HF Hi Hj. split.
  - intros H. destruct (Nat.le_gt_cases j i) as [Hji|Hji]; [exact Hji|]. destruct (corner_inv _ _ _ _ _ _ _ _ _ _ _ _ HF) as [Hs [b E]].
    destruct (init_inv _ _ _ _ _ _ _ Hs E i j Hi Hj) as (D & _). rewrite (decorate_hidden _ _ _ _ _ _ _ _ Hji) in D. injection D as D. rewrite <- D in H. discriminate.
  - intros H. apply (face_of _ _ _ _ _ _ _ _ _ _ _ _ HF i j). split; assumption.
Qed.
Lemma corner_iff p size rotate origin labels ticks grid : (1 <= size)%nat ->
  (enough size labels /\ enough size ticks -> exists fs p', corner_faces p size rotate origin labels ticks None None grid (mkSp None None None None None None) = (Ok fs, p'))
  /\ (~ (enough size labels /\ enough size ticks) -> exists p', corner_faces p size rotate origin labels ticks None None grid (mkSp None None None None None None) = (Err IndexError, p')).
Proof.
  intros Hs.
  assert (F : exists st p', figax p size None None grid (mkSp None None None None None None) = (Ok (pl_count p, st), p')).
  { unfold figax, plt_figure. destruct (Nat.eqb_spec size 0) as [E|_]; [lia|]. unfold subplots_adjust. cbn [pl_figs pl_current sp_h sp_w sp_left sp_right sp_bottom sp_top given_or]. rewrite Nat.eqb_refl.
    cbn [new_figure fg_size fg_left fg_right fg_bottom fg_top given_or]. rewrite (proj2 (Rleb_false (9 / 10) (1 / 8))), (proj2 (Rleb_false (88 / 100) (11 / 100))) by lra. cbn. eauto. }
  destruct F as (st & p' & F). unfold corner_faces. rewrite F. destruct (init_iff size rotate origin labels ticks (fun _ _ => new_face (match st with Some _ => true | None => false end)) Hs) as [H1 H2]. split.
  - intros H. destruct (H1 H) as [fs E]. rewrite E. eauto.
  - intros H. rewrite (H2 H). eauto.
Qed.

(** * Figures *)
Lemma size_default size : (1 <= size)%nat -> exists c, figure_size size None = (c, c) /\ 6 <= c <= 20 /\ ((2 <= size <= 5)%nat -> c = 4 * INR size).
Proof.
  intros Hs. exists (clip (4 * INR size) 6 20). split; [reflexivity|]. unfold clip. split.
  - split; [apply Rmin_glb; [apply Rmax_r|lra]|apply Rmin_r].
  - intros [H1 H2]. apply le_INR in H1, H2. change (INR 2) with (1 + 1) in H1. change (INR 5) with (1 + 1 + 1 + 1 + 1) in H2. rewrite Rmax_left by lra. apply Rmin_left. lra.
Qed.
Lemma figax_new p size figsize grid s f st p' : figax p size None figsize grid s = (Ok (f, st), p') ->
  f = pl_count p /\ pl_current p' = f /\ pl_count p' = S (pl_count p) /\ fg_size (pl_figs p' f) = figure_size size figsize
  /\ fg_h (pl_figs p' f) = match sp_h s with Some v => v | None => 1 / 10 end /\ fg_w (pl_figs p' f) = match sp_w s with Some v => v | None => 1 / 10 end
  /\ forall k, k <> f -> pl_figs p' k = pl_figs p k.
Proof.
  unfold figax, plt_figure. destruct (Nat.eqb size 0); [destruct figsize; discriminate|].
  assert (G : forall (R0 : res (nat * option nat) * pyplot), (match figsize with Some _ => R0 | None => R0 end) = R0) by (intros; destruct figsize; reflexivity).
  unfold subplots_adjust. cbn [pl_figs pl_current pl_count]. rewrite Nat.eqb_refl. destruct (orb _ _); [destruct figsize; discriminate|].
  intros E. assert (E' : (Ok (pl_count p, grid_style grid), mkPlt (fun k => if Nat.eqb k (pl_count p) then mkFig (fg_size (new_figure (figure_size size figsize))) (given_or (Some (given_or (sp_h s) (1 / 10))) (fg_h (new_figure (figure_size size figsize)))) (given_or (Some (given_or (sp_w s) (1 / 10))) (fg_w (new_figure (figure_size size figsize))))
      (given_or (sp_left s) (fg_left (new_figure (figure_size size figsize)))) (given_or (sp_bottom s) (fg_bottom (new_figure (figure_size size figsize)))) (given_or (sp_right s) (fg_right (new_figure (figure_size size figsize)))) (given_or (sp_top s) (fg_top (new_figure (figure_size size figsize))))
      else if Nat.eqb k (pl_count p) then new_figure (figure_size size figsize) else pl_figs p k) (S (pl_count p)) (pl_count p)) = (Ok (f, st), p')) by (destruct figsize; exact E).
  clear E. injection E' as <- _ <-. cbn [pl_figs pl_count pl_current]. rewrite Nat.eqb_refl. cbn. repeat split; try (destruct (sp_h s); reflexivity); try (destruct (sp_w s); reflexivity).
  intros k Hk. destruct (Nat.eqb_spec k (pl_count p)); [contradiction|reflexivity].
Qed.
Lemma figax_given p size fig grid s f st p' : figax p size (Some fig) None grid s = (Ok (f, st), p') ->
  f = fig /\ pl_count p' = pl_count p /\ pl_current p' = pl_current p
  /\ fg_h (pl_figs p' (pl_current p)) = match sp_h s with Some v => v | None => 1 / 10 end /\ fg_w (pl_figs p' (pl_current p)) = match sp_w s with Some v => v | None => 1 / 10 end
  /\ forall k, k <> pl_current p -> pl_figs p' k = pl_figs p k.
Proof.
  unfold figax. destruct (Nat.eqb size 0); [discriminate|]. unfold subplots_adjust. destruct (orb _ _); [discriminate|]. intros E. injection E as <- _ <-. cbn [pl_figs pl_count pl_current]. rewrite Nat.eqb_refl. cbn.
  repeat split; try (destruct (sp_h s); reflexivity); try (destruct (sp_w s); reflexivity). intros k Hk. destruct (Nat.eqb_spec k (pl_current p)); [contradiction|reflexivity].
Qed.
Lemma figax_size_given p size fig sz grid s : exists p', figax p size (Some fig) (Some sz) grid s = (Err TypeError, p').
Proof. unfold figax. eauto. Qed.
Lemma figax_none p size fig figsize grid s r p' : (fig = None \/ figsize = None) -> figax p size fig figsize grid s = (r, p') -> size = 0%nat -> r = Err ValueError.
Proof. intros H E ->. unfold figax, plt_figure in E. destruct H as [-> | ->]; [destruct figsize|destruct fig]; cbn in E; injection E as <- _; reflexivity. Qed.
Definition two_figs : pyplot := mkPlt (fun _ => new_figure (6, 6)) 2 1.
Lemma wrong_figure : exists p f st p', figax p 3 (Some 0%nat) None GrTrue (mkSp None None None None (Some (1 / 2)) (Some (1 / 2))) = (Ok (f, st), p') /\ f = 0%nat /\ (0 < pl_count p)%nat
  /\ pl_figs p' 0%nat = pl_figs p 0%nat /\ fg_h (pl_figs p 0%nat) <> 1 / 2 /\ fg_h (pl_figs p 1%nat) <> 1 / 2 /\ fg_h (pl_figs p' 1%nat) = 1 / 2.
Proof.
  exists two_figs. unfold figax, subplots_adjust, two_figs. cbn. rewrite (proj2 (Rleb_false (9 / 10) (1 / 8))), (proj2 (Rleb_false (88 / 100) (11 / 100))) by lra. cbn. do 3 eexists. split; [reflexivity|]. cbn. repeat split; try lia; lra.
Qed.
Lemma more_axes size dim rotate origin labels ticks fs : (size < dim)%nat -> (exactly size labels \/ exactly size ticks) -> init_faces size dim rotate origin labels ticks fs = Err IndexError.
Proof.
  intros Hd H. apply init_larger; [exact Hd|]. unfold exactly in H. destruct H as [H|H]; [left; destruct labels|right; destruct ticks]; cbn; try exact H; apply repeat_length.
Qed.

(** Proofs about corner plots: targets (C63), legends (C64), one pair of limits, origin, weights. *)
From Coq Require Import String Ascii ZArith.
From Verif Require Import Base ModelLinAlg ModelKernels ModelKDE ModelExtrema ModelUtils ModelGrid ModelApi ModelCorner ModelOptions SpecUtils SpecCorner
  ProofUtils ProofNested ProofCorner.
Open Scope R_scope.
Notation length := List.length.

(* ------------------------------------------------------------ target *)
Lemma mapM_concat_in {A B} (f : A -> res (list B)) l d y : mapM f l = Ok d -> (In y (concat d) <-> exists x ms, In x l /\ f x = Ok ms /\ In y ms).
Proof.
  revert d. induction l as [|a l IH]; intros d E; cbn [mapM] in E.
  - injection E as <-. split; [intros []|intros (x & ms & [] & _)].
  - destruct (f a) as [m|] eqn:Ea; [|discriminate E]. cbn [bind] in E. destruct (mapM f l) as [d'|] eqn:El; [|discriminate E]. cbn [bind] in E. injection E as <-. cbn [concat]. rewrite in_app_iff, (IH d' eq_refl). split.
    + intros [H|(x & ms & H1 & H2)]; [exists a, m; split; [left; reflexivity|auto]|exists x, ms; split; [right; exact H1|exact H2]].
    + intros (x & ms & [<-|Hx] & E & H); [left; rewrite Ea in E; injection E as ->; exact H|right; exists x, ms; auto].
Qed.
Lemma opt_mark_in x f ms y : opt_mark x f = Ok ms -> (In y ms <-> exists v, x = Some v /\ f v = Ok y).
Proof.
  unfold opt_mark. destruct x as [v|].
  - destruct (f v) as [m|] eqn:E; [|discriminate]. cbn. intros H. injection H as <-. split.
    + intros [<-|[]]. eauto.
    + intros (u & Hu & H). injection Hu as <-. rewrite E in H. injection H as ->. left. reflexivity.
  - intros H. injection H as <-. split; [intros []|intros (v & H & _); discriminate H].
Qed.
Lemma lim_pair_ok limits k a b : lim_pair limits k = Ok (a, b) <-> nth_error limits k = Some (LvPair a b).
Proof. unfold lim_pair. destruct (nth_error limits k) as [[| |a' b']|]; split; intros H; try discriminate H; injection H as -> ->; reflexivity. Qed.

Lemma in3 (A : Type) (x : A) a b c : In x (a ++ b ++ c) <-> In x a \/ In x b \/ In x c.
Proof. rewrite !in_app_iff. tauto. Qed.
Lemma bind_lim limits k (g : R * R -> mark) m : (do e <- lim_pair limits k ;; Ok (g e)) = Ok m <-> exists a b, nth_error limits k = Some (LvPair a b) /\ m = g (a, b).
Proof.
  split.
  - destruct (lim_pair limits k) as [[a b]|] eqn:E; [|discriminate]. cbn. intros H. injection H as <-. exists a, b. split; [apply lim_pair_ok, E|reflexivity].
  - intros (a & b & H & ->). apply lim_pair_ok in H. rewrite H. reflexivity.
Qed.
(** Marks of one parameter in one panel; [pick] chooses the end of the axis for lower limits. *)
Lemma marks_in limits targets uppers lowers i j k o (pick : R * R -> R) ms m :
  (do t <- opt_mark (nth k targets None) (fun x => Ok (Line i j o x)) ;;
   do u <- opt_mark (nth k uppers None) (fun x => do e <- lim_pair limits k ;; Ok (Span i j o (fst e) x)) ;;
   do l <- opt_mark (nth k lowers None) (fun x => do e <- lim_pair limits k ;; Ok (Span i j o x (pick e))) ;;
   Ok (t ++ u ++ l)) = Ok ms ->
  (In m ms <-> (exists x, nth k targets None = Some x /\ m = Line i j o x)
     \/ (exists a b x, nth_error limits k = Some (LvPair a b) /\ nth k uppers None = Some x /\ m = Span i j o a x)
     \/ (exists a b x, nth_error limits k = Some (LvPair a b) /\ nth k lowers None = Some x /\ m = Span i j o x (pick (a, b)))).
Proof.
  destruct (opt_mark (nth k targets None) _) as [t|] eqn:Et; [|discriminate]. cbn [bind].
  destruct (opt_mark (nth k uppers None) _) as [u|] eqn:Eu; [|discriminate]. cbn [bind].
  destruct (opt_mark (nth k lowers None) _) as [l|] eqn:El; [|discriminate]. cbn [bind]. intros H. injection H as <-.
  rewrite in3, (opt_mark_in _ _ _ _ Et), (opt_mark_in _ _ _ _ Eu), (opt_mark_in _ _ _ _ El). cbv beta.
  split.
  - intros [(v & Hv & E)|[(v & Hv & E)|(v & Hv & E)]].
    + injection E as <-. left. eauto.
    + apply (bind_lim limits k (fun e => Span i j o (fst e) v)) in E. destruct E as (a & b & E & ->). right. left. exists a, b, v. auto.
    + apply (bind_lim limits k (fun e => Span i j o v (pick e))) in E. destruct E as (a & b & E & ->). right. right. exists a, b, v. auto.
  - intros [(v & Hv & ->)|[(a & b & v & E & Hv & ->)|(a & b & v & E & Hv & ->)]].
    + left. eauto.
    + right. left. exists v. split; [exact Hv|]. apply (bind_lim limits k (fun e => Span i j o (fst e) v)). eauto.
    + right. right. exists v. split; [exact Hv|]. apply (bind_lim limits k (fun e => Span i j o v (pick e))). eauto.
Qed.

Lemma given_nth o size k : nth k (match o with None => repeat None size | Some l => l end) None = given o k.
Proof. destruct o; [reflexivity|]. apply nth_repeat. Qed.

Lemma target_in c targets up lo ms m : target c targets up lo = Ok ms ->
  (In m ms <-> exists i j k o, (i < co_size c)%nat /\ along (co_size c) (co_rotate c) i j k o /\
     ((exists x, nth k targets None = Some x /\ m = Line i j o x)
     \/ (exists a b x, nth_error (co_limits c) k = Some (LvPair a b) /\ given up k = Some x /\ m = Span i j o a x)
     \/ (exists a b x, nth_error (co_limits c) k = Some (LvPair a b) /\ given lo k = Some x /\ m = Span i j o x (if Nat.eqb i j then b else a)))).
Proof.
  unfold target. destruct (negb _); [discriminate|]. destruct (negb _); [discriminate|]. destruct (negb _); [discriminate|].
  set (U := match up with None => repeat None (co_size c) | Some l => l end). set (L := match lo with None => repeat None (co_size c) | Some l => l end).
  assert (GU : forall k, nth k U None = given up k) by (intros k; apply given_nth). assert (GL : forall k, nth k L None = given lo k) by (intros k; apply given_nth).
  destruct (mapM (target_1d _ _ _ _ _ _) _) as [d|] eqn:Ed; [|discriminate]. cbn [bind].
  destruct (mapM _ (seq 0 (co_size c))) as [e|] eqn:Ee in |- *; [|discriminate]. cbn [bind]. intros H. injection H as <-.
  rewrite in_app_iff, (mapM_concat_in _ _ _ _ Ed), (mapM_concat_in _ _ _ _ Ee). split.
  - intros [(j & ms & Hj & E & Hm)|(i & ms & Hi & E & Hm)].
    + apply in_seq in Hj. unfold target_1d in E. apply (marks_in _ _ _ _ _ _ _ _ snd) with (m := m) in E. apply E in Hm. rewrite GU, GL in Hm. cbn [snd] in Hm.
      exists j, j, j. eexists. split; [lia|]. split; [left; split; [reflexivity|]; split; reflexivity|]. rewrite Nat.eqb_refl. exact Hm.
    + apply in_seq in Hi. destruct (mapM _ (seq 0 i)) as [r|] eqn:Er in E; [|discriminate E]. cbn [bind] in E. injection E as <-.
      apply (mapM_concat_in _ _ _ _ Er) in Hm. destruct Hm as (j & ms & Hj & E & Hm). apply in_seq in Hj.
      destruct (target_2d _ _ _ _ i j i Horizontal) as [h|] eqn:Eh; [|discriminate E]. cbn [bind] in E. destruct (target_2d _ _ _ _ i j j Vertical) as [v|] eqn:Ev; [|discriminate E]. cbn [bind] in E. injection E as <-.
      unfold target_2d in Eh, Ev. apply (marks_in _ _ _ _ _ _ _ _ fst) with (m := m) in Eh. apply (marks_in _ _ _ _ _ _ _ _ fst) with (m := m) in Ev.
      assert (NE : Nat.eqb i j = false) by (apply Nat.eqb_neq; lia). apply in_app_iff in Hm. destruct Hm as [Hm|Hm].
      * apply Eh in Hm. rewrite GU, GL in Hm. exists i, j, i, Horizontal. split; [lia|]. split; [right; split; [lia|left; auto]|]. rewrite NE. exact Hm.
      * apply Ev in Hm. rewrite GU, GL in Hm. exists i, j, j, Vertical. split; [lia|]. split; [right; split; [lia|right; auto]|]. rewrite NE. exact Hm.
  - intros (i & j & k & o & Hi & HA & Hm). destruct HA as [(<- & -> & Eo)|(Hj & HA)].
    + left. destruct (mapM_Ok_In _ _ _ Ed i) as (ms & E & _); [apply in_seq; lia|]. exists i, ms. split; [apply in_seq; lia|]. split; [exact E|].
      unfold target_1d in E. apply (marks_in _ _ _ _ _ _ _ _ snd) with (m := m) in E. apply E. rewrite GU, GL. rewrite Nat.eqb_refl in Hm. unfold is_last. rewrite <- Eo. exact Hm.
    + right. destruct (mapM_Ok_In _ _ _ Ee i) as (ms & E & _); [apply in_seq; lia|]. exists i, ms. split; [apply in_seq; lia|]. split; [exact E|].
      destruct (mapM _ (seq 0 i)) as [r|] eqn:Er in E; [|discriminate E]. cbn [bind] in E. injection E as <-. apply (mapM_concat_in _ _ _ _ Er).
      destruct (mapM_Ok_In _ _ _ Er j) as (ms & E & _); [apply in_seq; lia|]. exists j, ms. split; [apply in_seq; lia|]. split; [exact E|]. cbv beta in E.
      destruct (target_2d _ _ _ _ i j i Horizontal) as [h|] eqn:Eh; [|discriminate E]. cbn [bind] in E. destruct (target_2d _ _ _ _ i j j Vertical) as [v|] eqn:Ev; [|discriminate E]. cbn [bind] in E. injection E as <-.
      unfold target_2d in Eh, Ev. apply (marks_in _ _ _ _ _ _ _ _ fst) with (m := m) in Eh. apply (marks_in _ _ _ _ _ _ _ _ fst) with (m := m) in Ev.
      assert (NE : Nat.eqb i j = false) by (apply Nat.eqb_neq; lia). rewrite NE in Hm. apply in_app_iff. destruct HA as [(-> & ->)|(-> & ->)].
      * left. apply Eh. rewrite GU, GL. exact Hm.
      * right. apply Ev. rewrite GU, GL. exact Hm.
Qed.

(** Lines. *)
Theorem target_lines c targets up lo ms i j o x : target c targets up lo = Ok ms ->
  (In (Line i j o x) ms <-> (i < co_size c)%nat /\ exists k, along (co_size c) (co_rotate c) i j k o /\ nth k targets None = Some x).
Proof.
  intros E. rewrite (target_in _ _ _ _ _ _ E). split.
  - intros (i' & j' & k & o' & Hi & HA & [(v & Hv & Em)|[(a & b & v & _ & _ & Em)|(a & b & v & _ & _ & Em)]]); [|discriminate Em|discriminate Em].
    injection Em as <- <- <- <-. split; [exact Hi|]. exists k. auto.
  - intros (Hi & k & HA & Hx). exists i, j, k, o. split; [exact Hi|]. split; [exact HA|]. left. eauto.
Qed.
(** Shaded regions. *)
Theorem target_spans c targets up lo ms i j o p q : target c targets up lo = Ok ms ->
  (In (Span i j o p q) ms <-> (i < co_size c)%nat /\ exists k a b, along (co_size c) (co_rotate c) i j k o /\ nth_error (co_limits c) k = Some (LvPair a b)
     /\ ((given up k = Some q /\ p = a) \/ (given lo k = Some p /\ q = if Nat.eqb i j then b else a))).
Proof.
  intros E. rewrite (target_in _ _ _ _ _ _ E). split.
  - intros (i' & j' & k & o' & Hi & HA & [(v & Hv & Em)|[(a & b & v & L & Hv & Em)|(a & b & v & L & Hv & Em)]]); [discriminate Em| |].
    + injection Em as <- <- <- <- <-. split; [exact Hi|]. exists k, p, b. auto.
    + injection Em as <- <- <- <- ->. split; [exact Hi|]. exists k, a, b. auto.
  - intros (Hi & k & a & b & HA & L & [(Hv & ->)|(Hv & ->)]); exists i, j, k, o; (split; [exact Hi|]); (split; [exact HA|]); right; [left|right]; exists a, b; eauto.
Qed.
(** When it succeeds, and the errors. *)
Lemma opt_mark_ok x f : (forall v, x = Some v -> exists m, f v = Ok m) -> exists ms, opt_mark x f = Ok ms.
Proof. unfold opt_mark. destruct x as [v|]; intros H; [|eauto]. destruct (H v eq_refl) as (m & ->). cbn. eauto. Qed.
Lemma marks_ok limits targets uppers lowers i j k o (pick : R * R -> R) :
  (nth k uppers None = None /\ nth k lowers None = None \/ exists a b, nth_error limits k = Some (LvPair a b)) ->
  exists ms, (do t <- opt_mark (nth k targets None) (fun x => Ok (Line i j o x)) ;;
   do u <- opt_mark (nth k uppers None) (fun x => do e <- lim_pair limits k ;; Ok (Span i j o (fst e) x)) ;;
   do l <- opt_mark (nth k lowers None) (fun x => do e <- lim_pair limits k ;; Ok (Span i j o x (pick e))) ;;
   Ok (t ++ u ++ l)) = Ok ms.
Proof.
  intros H. destruct (opt_mark_ok (nth k targets None) (fun x => Ok (Line i j o x))) as (t & ->); [intros v _; eauto|]. cbn [bind].
  destruct (opt_mark_ok (nth k uppers None) (fun x => do e <- lim_pair limits k ;; Ok (Span i j o (fst e) x))) as (u & ->).
  { intros v Hv. destruct H as [[H _]|(a & b & H)]; [rewrite H in Hv; discriminate Hv|]. apply lim_pair_ok in H. rewrite H. cbn. eauto. }
  cbn [bind]. destruct (opt_mark_ok (nth k lowers None) (fun x => do e <- lim_pair limits k ;; Ok (Span i j o x (pick e)))) as (l & ->).
  { intros v Hv. destruct H as [[_ H]|(a & b & H)]; [rewrite H in Hv; discriminate Hv|]. apply lim_pair_ok in H. rewrite H. cbn. eauto. }
  cbn [bind]. eauto.
Qed.
Theorem target_total c targets up lo : length targets = co_size c -> (forall l, up = Some l -> length l = co_size c) -> (forall l, lo = Some l -> length l = co_size c) ->
  (forall k, (k < co_size c)%nat -> given up k = None /\ given lo k = None \/ exists a b, nth_error (co_limits c) k = Some (LvPair a b)) ->
  exists ms, target c targets up lo = Ok ms.
Proof.
  intros HT HU HL HK. unfold target. rewrite HT, Nat.eqb_refl. cbn [negb].
  assert (LL : length (match lo with None => repeat None (co_size c) | Some l => l end) = co_size c) by (destruct lo; [apply HL; reflexivity|apply repeat_length]).
  assert (LU : length (match up with None => repeat None (co_size c) | Some l => l end) = co_size c) by (destruct up; [apply HU; reflexivity|apply repeat_length]).
  rewrite LL, LU, Nat.eqb_refl. cbn [negb].
  set (U := match up with None => repeat None (co_size c) | Some l => l end) in *. set (L := match lo with None => repeat None (co_size c) | Some l => l end) in *.
  assert (K : forall k, (k < co_size c)%nat -> nth k U None = None /\ nth k L None = None \/ exists a b, nth_error (co_limits c) k = Some (LvPair a b)).
  { intros k Hk. unfold U, L. rewrite !given_nth. apply HK, Hk. }
  destruct (mapM_ok_all (target_1d (co_size c) (co_rotate c) (co_limits c) targets U L) (seq 0 (co_size c))) as (d & ->).
  { intros k Hk. apply in_seq in Hk. apply (marks_ok _ _ _ _ _ _ _ _ snd). apply K. lia. }
  cbn [bind].
  match goal with |- context [mapM ?f (seq 0 (co_size c))] => destruct (mapM_ok_all f (seq 0 (co_size c))) as (e & ->) end; [|cbn [bind]; eauto].
  intros i Hi. apply in_seq in Hi. match goal with |- context [mapM ?f (seq 0 i)] => destruct (mapM_ok_all f (seq 0 i)) as (r & ->) end; [|cbn [bind]; eauto].
  intros j Hj. apply in_seq in Hj.
  destruct (marks_ok (co_limits c) targets U L i j i Horizontal fst) as (h & Eh); [apply K; lia|]. destruct (marks_ok (co_limits c) targets U L i j j Vertical fst) as (v & Ev); [apply K; lia|].
  unfold target_2d. rewrite Eh. cbn [bind]. rewrite Ev. cbn [bind]. eauto.
Qed.
Theorem target_errors c targets up lo : length targets <> co_size c \/ (exists l, up = Some l /\ length l <> co_size c) \/ (exists l, lo = Some l /\ length l <> co_size c) ->
  target c targets up lo = Err ValueError.
Proof.
  intros H. unfold target. destruct (Nat.eqb_spec (length targets) (co_size c)) as [E|E]; [|reflexivity]. cbn [negb].
  destruct (Nat.eqb_spec (length (match lo with None => repeat None (co_size c) | Some l => l end)) (co_size c)) as [E1|E1]; [|reflexivity]. cbn [negb].
  destruct (Nat.eqb_spec (length (match up with None => repeat None (co_size c) | Some l => l end)) (co_size c)) as [E2|E2]; [|reflexivity]. exfalso.
  destruct H as [H|[(l & -> & H)|(l & -> & H)]]; contradiction.
Qed.
(** Limits of parameters before anything was plotted: TypeError. *)
Theorem target_unset size rotate c targets up lo k : corner_init size rotate None = Ok c -> length targets = size -> (forall l, up = Some l -> length l = size) -> (forall l, lo = Some l -> length l = size) ->
  (k < size)%nat -> given up k <> None \/ given lo k <> None -> target c targets up lo = Err TypeError.
Proof.
  intros E HT HU HL Hk HG. injection E as <-. unfold target. cbn [co_size co_rotate co_limits]. rewrite HT, Nat.eqb_refl. cbn [negb].
  assert (E1 : length (match lo with None => repeat None size | Some l => l end) = size) by (destruct lo; [apply HL; reflexivity|apply repeat_length]).
  assert (E2 : length (match up with None => repeat None size | Some l => l end) = size) by (destruct up; [apply HU; reflexivity|apply repeat_length]).
  rewrite E1, E2, Nat.eqb_refl. cbn [negb].
  set (U := match up with None => repeat None size | Some l => l end) in *. set (L := match lo with None => repeat None size | Some l => l end) in *.
  assert (NT : forall j, (j < size)%nat -> lim_pair (repeat LvNone size) j = Err TypeError).
  { intros j Hj. unfold lim_pair. rewrite (nth_error_nth' _ LvNone) by (rewrite repeat_length; exact Hj). rewrite nth_repeat. reflexivity. }
  assert (F : forall j, (j < size)%nat -> (exists ms, target_1d size rotate (repeat LvNone size) targets U L j = Ok ms) \/ target_1d size rotate (repeat LvNone size) targets U L j = Err TypeError).
  { intros j Hj. unfold target_1d, opt_mark. rewrite NT by exact Hj. destruct (nth j targets None), (nth j U None), (nth j L None); cbn; eauto. }
  assert (FK : target_1d size rotate (repeat LvNone size) targets U L k = Err TypeError).
  { unfold target_1d, opt_mark. rewrite NT by exact Hk. unfold U, L. rewrite !given_nth. destruct (nth k targets None), (given up k), (given lo k); cbn; try reflexivity; destruct HG as [HG|HG]; contradiction (HG eq_refl). }
  assert (M : forall l, (forall j, In j l -> (j < size)%nat) -> In k l -> mapM (target_1d size rotate (repeat LvNone size) targets U L) l = Err TypeError).
  { induction l as [|a l IH]; intros HB HI; [destruct HI|]. cbn [mapM]. destruct (F a (HB a (or_introl eq_refl))) as [(ms & E3)|E3]; rewrite E3; [|reflexivity]. cbn [bind].
    destruct HI as [HI|HI]; [subst a; rewrite FK in E3; discriminate E3|]. rewrite (IH (fun j Hj => HB j (or_intror Hj)) HI). reflexivity. }
  rewrite M; [reflexivity| |apply in_seq; lia]. intros j Hj. apply in_seq in Hj. lia.
Qed.
(** An upper limit shades the same range of its parameter in every panel showing it. *)
Theorem target_upper c targets up lo ms k a b x i j o : target c targets up lo = Ok ms -> nth_error (co_limits c) k = Some (LvPair a b) -> given up k = Some x ->
  (i < co_size c)%nat -> along (co_size c) (co_rotate c) i j k o -> In (Span i j o a x) ms.
Proof. intros E L G Hi HA. apply (target_spans _ _ _ _ _ _ _ _ _ _ E). split; [exact Hi|]. exists k, a, b. auto. Qed.
(** A lower limit shades what lies above it on the diagonal, but what lies below it in all other panels. *)
Theorem target_lower c targets up lo ms k a b x : target c targets up lo = Ok ms -> nth_error (co_limits c) k = Some (LvPair a b) -> given lo k = Some x -> (k < co_size c)%nat -> (2 <= co_size c)%nat ->
  (exists o, along (co_size c) (co_rotate c) k k k o /\ In (Span k k o x b) ms)
  /\ (exists i j o, i <> j /\ (i < co_size c)%nat /\ along (co_size c) (co_rotate c) i j k o)
  /\ forall i j o, i <> j -> (i < co_size c)%nat -> along (co_size c) (co_rotate c) i j k o -> In (Span i j o x a) ms /\ (given up k = None -> a < b -> ~ In (Span i j o x b) ms).
Proof.
  intros E L G Hk H2. split; [|split].
  - exists (if andb (co_rotate c) (Nat.eqb k (co_size c - 1)) then Horizontal else Vertical). assert (A : along (co_size c) (co_rotate c) k k k (if andb (co_rotate c) (Nat.eqb k (co_size c - 1)) then Horizontal else Vertical)) by (left; auto).
    split; [exact A|]. apply (target_spans _ _ _ _ _ _ _ _ _ _ E). split; [exact Hk|]. exists k, a, b. split; [exact A|]. split; [exact L|]. right. rewrite Nat.eqb_refl. auto.
  - destruct k as [|k]; [exists 1%nat, 0%nat, Vertical|exists (S k), 0%nat, Horizontal]; (split; [lia|]); (split; [lia|]); right; split; try lia; auto.
  - intros i j o N Hi HA. assert (NE : Nat.eqb i j = false) by (apply Nat.eqb_neq; exact N). split.
    + apply (target_spans _ _ _ _ _ _ _ _ _ _ E). split; [exact Hi|]. exists k, a, b. split; [exact HA|]. split; [exact L|]. right. rewrite NE. auto.
    + intros GU Hab HI. apply (target_spans _ _ _ _ _ _ _ _ _ _ E) in HI. destruct HI as (_ & k' & a' & b' & HA' & L' & H).
      assert (k' = k). { destruct HA as [(? & _)|(_ & [[? Ho]|[? Ho]])]; [contradiction| |]; (destruct HA' as [(? & _)|(_ & [[? Ho']|[? Ho']])]; [contradiction| |]); try congruence. }
      subst k'. rewrite L in L'. injection L' as <- <-. rewrite NE in H. destruct H as [[H _]|[_ H]]; [congruence|lra].
Qed.

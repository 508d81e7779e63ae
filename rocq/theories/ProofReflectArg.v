(** Proofs about reflect arguments. *)
From Verif Require Import Base ModelLinAlg ModelKernels ModelKDE ModelExtrema ModelReflect SpecReflect SpecKDE ProofExtrema.
Open Scope R_scope.
Notation length := List.length.

Lemma is_min_lmin data i : data <> [] -> is_min data i (lmin (coords i data)).
Proof.
  intros H. split.
  - pose proof (lmin_in _ (coords_nonempty i data H)) as Hi. unfold coords in Hi at 2. apply in_map_iff in Hi.
    destruct Hi as [p [E Hp]]. exists p. auto.
  - intros p Hp. apply lmin_le, coords_in, Hp.
Qed.
Lemma is_max_lmax data i : data <> [] -> is_max data i (lmax (coords i data)).
Proof.
  intros H. split.
  - pose proof (lmax_in _ (coords_nonempty i data H)) as Hi. unfold coords in Hi at 2. apply in_map_iff in Hi.
    destruct Hi as [p [E Hp]]. exists p. auto.
  - intros p Hp. apply lmax_ge, coords_in, Hp.
Qed.
Lemma is_min_unique data i a b : is_min data i a -> is_min data i b -> a = b.
Proof.
  intros [[p [Hp Ep]] H1] [[q [Hq Eq]] H2]. pose proof (H1 q Hq). pose proof (H2 p Hp). lra.
Qed.
Lemma is_max_unique data i a b : is_max data i a -> is_max data i b -> a = b.
Proof.
  intros [[p [Hp Ep]] H1] [[q [Hq Eq]] H2]. pose proof (H1 q Hq). pose proof (H2 p Hp). lra.
Qed.

Definition fill_val (auto : R) (v : pyv) : pyv := if is_true v then VNum auto else v.

Lemma means_lo_iff data i v o : data <> [] -> means_lo data i v o <-> o = v_opt (fill_val (auto_lo data i) v).
Proof.
  intros H. destruct v as [|[]|r]; cbn; try tauto. split.
  - intros [m [Hm ->]]. unfold auto_lo. rewrite (is_min_unique _ _ _ _ Hm (is_min_lmin data i H)). reflexivity.
  - intros ->. eexists. split; [apply is_min_lmin, H|reflexivity].
Qed.
Lemma means_hi_iff data i v o : data <> [] -> means_hi data i v o <-> o = v_opt (fill_val (auto_hi data i) v).
Proof.
  intros H. destruct v as [|[]|r]; cbn; try tauto. split.
  - intros [m [Hm ->]]. unfold auto_hi. rewrite (is_max_unique _ _ _ _ Hm (is_max_lmax data i H)). reflexivity.
  - intros ->. eexists. split; [apply is_max_lmax, H|reflexivity].
Qed.

Lemma order_check_iff a b : order_check a b = Ok tt <-> ordered (Some (v_opt a, v_opt b)).
Proof.
  unfold order_check. destruct a as [|x|r], b as [|y|s]; cbn [is_none negb orb andb v_opt ordered]; try (split; trivial; fail);
    (match goal with |- context [Rleb ?u ?v] => destruct (Rleb_spec u v) end);
    (split; [intros E; try discriminate E; try lra | intros Ho; try reflexivity; exfalso; lra]).
Qed.
Lemma order_check_err a b e : order_check a b = Err e -> e = ValueError.
Proof. unfold order_check. destruct (andb _ _); [|discriminate]. intros E; injection E as <-. reflexivity. Qed.

Lemma fill_true_eq k data auto v : data <> [] ->
  fill_true k data auto v = (if is_true v then match k with KTuple => (v, Err TypeError) | KList => (VNum auto, Ok tt) end else (v, Ok tt)).
Proof. intros H. unfold fill_true. destruct data; [contradiction|]. reflexivity. Qed.

Lemma check_entry_ok ko data ii e ob : data <> [] -> entry_good e = Some true ->
  ((snd (check_entry ko data ii e) = Ok tt /\ entry_spec (fst (check_entry ko data ii e)) = ob)
   <-> (~ entry_tuple_true ko e /\ means data ii e ob /\ ordered ob)).
Proof.
  intros Hd Hg. destruct e as [v|k l].
  - cbn [entry_good] in Hg. destruct v as [|[]|r]; cbn [is_none is_true orb] in Hg; try discriminate.
    + cbn. split.
      * intros [_ <-]. split; [|split; [constructor|exact I]]. intros [[_ H]|[l [H _]]]; discriminate H.
      * intros [_ [Hm _]]. inversion Hm. auto.
    + cbn [check_entry is_true]. destruct data as [|p0 data]; [contradiction|]. destruct ko.
      * cbv zeta. cbn [fst snd entry_spec]. rewrite order_check_iff. split.
        -- intros [Ho <-]. split; [|split; [|exact Ho]].
           ++ intros [[H _]|[l [H _]]]; discriminate H.
           ++ constructor; [apply means_lo_iff|apply means_hi_iff]; auto.
        -- intros [_ [Hm Ho]]. inversion Hm as [|a b Ha Hb|]; subst.
           apply means_lo_iff in Ha; [|exact Hd]. apply means_hi_iff in Hb; [|exact Hd]. cbn in Ha, Hb. subst a b. cbn. split; [exact Ho|reflexivity].
      * cbn. split; [intros [H _]; discriminate H|]. intros [H _]. exfalso. apply H. left. auto.
  - cbn [entry_good] in Hg. injection Hg as Hg. apply Nat.eqb_eq in Hg.
    destruct l as [|a [|b [|]]]; try discriminate Hg. cbn [check_entry].
    rewrite !fill_true_eq by exact Hd.
    assert (HH : (k = KList \/ (is_true a = false /\ is_true b = false)) \/ (k = KTuple /\ (is_true a = true \/ is_true b = true))).
    { destruct k; [auto|]. destruct (is_true a), (is_true b); auto. }
    destruct HH as [HH|[-> HH]].
    + assert (E : (match (if is_true a then match k with KTuple => (a, Err TypeError) | KList => (VNum (auto_lo data ii), Ok tt) end else (a, Ok tt)) with
                   | (a', Ok _) => match (if is_true b then match k with KTuple => (b, Err TypeError) | KList => (VNum (auto_hi data ii), Ok tt) end else (b, Ok tt)) with
                                  | (b', Ok _) => (ESeq k [a'; b'], order_check a' b')
                                  | (b', Err x) => (ESeq k [a'; b'], Err x) end
                   | (a', Err x) => (ESeq k [a'; b], Err x) end)
                  = (ESeq k [fill_val (auto_lo data ii) a; fill_val (auto_hi data ii) b],
                     order_check (fill_val (auto_lo data ii) a) (fill_val (auto_hi data ii) b))).
      { unfold fill_val. destruct HH as [->|[-> ->]]; [|reflexivity]. destruct (is_true a), (is_true b); reflexivity. }
      rewrite E. cbn [fst snd entry_spec]. rewrite order_check_iff. split.
      * intros [Ho <-]. split; [|split; [|exact Ho]].
        -- intros [[_ H]|[l [H Hin]]]; [discriminate H|]. injection H as -> <-.
           destruct HH as [HH|[H1 H2]]; [discriminate HH|]. destruct Hin as [Hin|[Hin|[]]]; subst; discriminate.
        -- constructor; [apply means_lo_iff|apply means_hi_iff]; auto.
      * intros [_ [Hm Ho]]. inversion Hm as [| |k' u v x y Ha Hb]; subst.
        apply means_lo_iff in Ha; [|exact Hd]. apply means_hi_iff in Hb; [|exact Hd]. subst x y. split; [exact Ho|reflexivity].
    + split.
      * intros [H _]. exfalso. destruct (is_true a); [discriminate H|]. destruct HH as [HH|HH]; [discriminate HH|]. rewrite HH in H. discriminate H.
      * intros [H _]. exfalso. apply H. right. exists [a; b]. split; [reflexivity|].
        destruct HH as [HH|HH]; [left|right; left]; [destruct a as [|[]|]|destruct b as [|[]|]]; try discriminate HH; reflexivity.
Qed.

Lemma check_entry_err ko data ii e x : data <> [] -> snd (check_entry ko data ii e) = Err x ->
  x = ValueError \/ (x = TypeError /\ entry_tuple_true ko e).
Proof.
  intros Hd. destruct e as [v|k l].
  - cbn [check_entry]. destruct (is_true v) eqn:Ev; [|discriminate]. destruct data; [contradiction|]. destruct ko.
    + cbn [snd]. intros H. left. eapply order_check_err, H.
    + cbn. intros H. injection H as <-. right. split; [reflexivity|]. left. destruct v as [|[]|]; try discriminate Ev. auto.
  - destruct l as [|a [|b [|]]]; try discriminate. cbn [check_entry]. rewrite !fill_true_eq by exact Hd.
    assert (HT : forall v, is_true v = true -> v = VBool true) by (intros [|[]|]; try discriminate; reflexivity).
    destruct (is_true a) eqn:Ea.
    + destruct k.
      * destruct (is_true b); cbn [snd]; intros H; left; eapply order_check_err, H.
      * cbn. intros H. injection H as <-. right. split; [reflexivity|]. right. eexists. split; [reflexivity|]. left. apply HT, Ea.
    + destruct (is_true b) eqn:Eb.
      * destruct k; [cbn [snd]; intros H; left; eapply order_check_err, H|].
        cbn. intros H. injection H as <-. right. split; [reflexivity|]. right. eexists. split; [reflexivity|]. right. left. apply HT, Eb.
      * cbn [snd]. intros H; left; eapply order_check_err, H.
Qed.

Lemma check_loop_ok k data : data <> [] -> forall l ii spec, goods l = true ->
  ((snd (check_loop k data ii l) = Ok tt /\ map entry_spec (fst (check_loop k data ii l)) = spec)
   <-> ((forall e, In e l -> ~ entry_tuple_true k e) /\ length spec = length l
        /\ forall j, (j < length l)%nat -> means data (ii + j) (nth j l (EAtom VNone)) (nth j spec None) /\ ordered (nth j spec None))).
Proof.
  intros Hd. induction l as [|e l IH]; intros ii spec Hg.
  - cbn. split; [intros [_ <-]; repeat split; try tauto; intros; lia|]. intros [_ [H _]]. destruct spec; [auto|discriminate H].
  - cbn [goods forallb] in Hg. apply Bool.andb_true_iff in Hg. destruct Hg as [Hg1 Hg2].
    assert (Hge : entry_good e = Some true) by (destruct (entry_good e) as [[]|]; try discriminate; reflexivity).
    cbn [check_loop]. pose proof (fun ob => check_entry_ok k data ii e ob Hd Hge) as HE.
    destruct (check_entry k data ii e) as [e' [u|x]]; cbn [fst snd] in HE.
    + cbv zeta. cbn [fst snd map]. destruct u. split.
      * intros [H1 <-]. destruct (proj1 (IH (S ii) _ Hg2) (conj H1 eq_refl)) as [A [B C]].
        destruct (proj1 (HE _) (conj eq_refl eq_refl)) as [A' [B' C']]. split; [|split].
        -- intros e0 [<-|H]; auto.
        -- cbn [length]. rewrite B. reflexivity.
        -- intros [|j] Hj; cbn [nth]; [rewrite Nat.add_0_r; auto|]. cbn [length] in Hj.
           replace (ii + S j)%nat with (S ii + j)%nat by lia. apply C. lia.
      * intros [A [B C]]. destruct spec as [|ob spec]; [discriminate B|].
        pose proof (C O ltac:(cbn; lia)) as [C1 C2]. rewrite Nat.add_0_r in C1. cbn [nth] in C1, C2.
        destruct (proj2 (HE ob)) as [_ E]; [split; [apply A; left; reflexivity|split; assumption]|].
        destruct (proj2 (IH (S ii) spec Hg2)) as [E1 E2].
        { split; [intros e0 He0; apply A; right; exact He0|]. split; [cbn in B; lia|]. intros j Hj.
          pose proof (C (S j) ltac:(cbn; lia)) as Cj. cbn [nth] in Cj. replace (ii + S j)%nat with (S ii + j)%nat in Cj by lia. exact Cj. }
        split; [exact E1|]. rewrite E, E2. reflexivity.
    + cbn [fst snd]. split; [intros [H _]; discriminate H|]. intros [A [B C]]. exfalso.
      destruct spec as [|ob spec]; [discriminate B|].
      pose proof (C O ltac:(cbn; lia)) as [C1 C2]. rewrite Nat.add_0_r in C1. cbn [nth] in C1, C2.
      destruct (proj2 (HE ob)) as [H _]; [|discriminate H]. split; [apply A; left; reflexivity|split; assumption].
Qed.

Lemma check_loop_err k data : data <> [] -> forall l ii x, snd (check_loop k data ii l) = Err x ->
  x = ValueError \/ (x = TypeError /\ exists e, In e l /\ entry_tuple_true k e).
Proof.
  intros Hd. induction l as [|e l IH]; intros ii x; [discriminate|]. cbn [check_loop].
  pose proof (check_entry_err k data ii e) as HE. destruct (check_entry k data ii e) as [e' [u|y]]; cbn [snd] in *.
  - intros H. destruct (IH _ _ H) as [|[-> [e0 [H1 H2]]]]; [auto|]. right. split; [reflexivity|]. exists e0. split; [right; exact H1|exact H2].
  - intros H. injection H as <-. destruct (HE y Hd eq_refl) as [|[-> H]]; [auto|]. right. split; [reflexivity|]. exists e. split; [left; reflexivity|exact H].
Qed.

Lemma means_good data i e ob : means data i e ob -> entry_good e = Some true.
Proof. intros H. inversion H; reflexivity. Qed.

(* C14 *)
Lemma check_reflect_seq n data k l spec : data <> [] -> (length l <> 2%nat \/ n <> 1%nat) ->
  (snd (check_reflect n data (RSeq k l)) = Ok (Some spec)
   <-> (length l = n /\ (forall e, In e l -> ~ entry_tuple_true k e) /\ length spec = n
        /\ forall i, (i < n)%nat -> means data i (nth i l (EAtom VNone)) (nth i spec None) /\ ordered (nth i spec None))).
Proof.
  intros Hd Hc. cbn [check_reflect].
  assert (E : andb (Nat.eqb (length l) 2) (Nat.eqb n 1) = false).
  { destruct (Nat.eqb_spec (length l) 2), (Nat.eqb_spec n 1); try reflexivity. destruct Hc; contradiction. }
  rewrite E. destruct (Nat.eqb_spec (length l) n) as [Hl|Hl]; cbn [negb].
  2:{ cbn [snd]. split; [discriminate|]. intros [H _]. contradiction. }
  destruct (goods l) eqn:Hg; cbn [negb].
  - cbv zeta. cbn [snd]. pose proof (check_loop_ok k data Hd l 0 spec Hg) as H.
    destruct (snd (check_loop k data 0 l)) as [[]|x]; cbn [bind].
    + split.
      * intros E1. injection E1 as E1. destruct (proj1 H (conj eq_refl E1)) as [A [B C]]. rewrite Hl in *. tauto.
      * intros [_ [A [B C]]]. destruct (proj2 H) as [_ <-]; [|reflexivity]. rewrite Hl. auto.
    + split; [discriminate|]. intros [_ [A [B C]]]. destruct (proj2 H) as [H' _]; [rewrite Hl; auto|discriminate H'].
  - cbn [snd]. split; [discriminate|]. intros [_ [A [B C]]]. exfalso.
    assert (goods l = true); [|congruence]. unfold goods. apply forallb_forall. intros e He.
    destruct (In_nth l e (EAtom VNone) He) as [i [Hi Ei]]. rewrite Hl in Hi. destruct (C i Hi) as [Hm _]. rewrite Ei in Hm.
    rewrite (means_good _ _ _ _ Hm). reflexivity.
Qed.

Lemma check_reflect_pair data k a b spec : data <> [] ->
  (snd (check_reflect 1 data (RSeq k [EAtom a; EAtom b])) = Ok (Some spec)
   <-> exists ob, spec = [ob] /\ ordered ob /\
      (if orb (is_none a) (is_none b) then means data 0 (ESeq KList [a; b]) ob else ob = Some (v_opt a, v_opt b))).
Proof.
  intros Hd. cbn [check_reflect length Nat.eqb andb]. cbv zeta. cbn [snd]. set (ab := coerce_pair a b).
  assert (Hg : goods [ESeq KList [fst ab; snd ab]] = true) by reflexivity.
  pose proof (check_loop_ok KList data Hd [ESeq KList [fst ab; snd ab]] 0 spec Hg) as H.
  assert (Hmid : ((forall e, In e [ESeq KList [fst ab; snd ab]] -> ~ entry_tuple_true KList e) /\ length spec = length [ESeq KList [fst ab; snd ab]]
        /\ forall j, (j < length [ESeq KList [fst ab; snd ab]])%nat ->
            means data (0 + j) (nth j [ESeq KList [fst ab; snd ab]] (EAtom VNone)) (nth j spec None) /\ ordered (nth j spec None))
     <-> exists ob, spec = [ob] /\ ordered ob /\
      (if orb (is_none a) (is_none b) then means data 0 (ESeq KList [a; b]) ob else ob = Some (v_opt a, v_opt b))).
  { assert (Hm : forall ob, means data 0 (ESeq KList [fst ab; snd ab]) ob <->
        (if orb (is_none a) (is_none b) then means data 0 (ESeq KList [a; b]) ob else ob = Some (v_opt a, v_opt b))).
    { intros ob. unfold ab, coerce_pair. destruct (orb (is_none a) (is_none b)) eqn:E; [reflexivity|]. cbn [fst snd].
      apply Bool.orb_false_iff in E. destruct E as [E1 E2].
      assert (Ev : forall v, is_none v = false -> v_opt v = Some (v_num v)) by (intros [|[]|]; try discriminate; reflexivity).
      rewrite !Ev by assumption. split.
      - intros Hm. inversion Hm as [| |k' u v x y Ha Hb]; subst. cbn in Ha, Hb. subst. reflexivity.
      - intros ->. constructor; reflexivity. }
    split.
    - intros [_ [B C]]. destruct spec as [|ob [|]]; try discriminate B. destruct (C O ltac:(cbn; lia)) as [C1 C2]. cbn in C1, C2.
      exists ob. split; [reflexivity|]. split; [exact C2|]. apply Hm, C1.
    - intros [ob [-> [Ho Hx]]]. split; [|split; [reflexivity|]].
      + intros e [<-|[]] [[H1 _]|[l [H1 _]]]; discriminate H1.
      + intros j Hj. cbn in Hj. assert (j = O) by lia. subst j. cbn. split; [apply Hm, Hx|exact Ho]. }
  rewrite <- Hmid, <- H. destruct (snd (check_loop KList data 0 [ESeq KList [fst ab; snd ab]])) as [[]|x]; cbn [bind].
  - split; [intros E; injection E as E; auto|]. intros [_ <-]. reflexivity.
  - split; [discriminate|]. intros [E _]; discriminate E.
Qed.

Lemma check_reflect_true n data spec : data <> [] ->
  (snd (check_reflect n data RTrue) = Ok (Some spec)
   <-> (length spec = n /\ forall i, (i < n)%nat -> means data i (EAtom (VBool true)) (nth i spec None) /\ ordered (nth i spec None))).
Proof.
  intros Hd. cbn [check_reflect snd]. cbv zeta. cbn [snd].
  set (l := repeat (EAtom (VBool true)) n).
  assert (Hg : goods l = true). { unfold goods. apply forallb_forall. intros e He. apply repeat_spec in He. subst e. reflexivity. }
  assert (Hl : length l = n) by apply repeat_length.
  pose proof (check_loop_ok KList data Hd l 0 spec Hg) as H. rewrite Hl in H.
  assert (Hn : forall i, (i < n)%nat -> nth i l (EAtom VNone) = EAtom (VBool true)).
  { intros i Hi. apply repeat_spec with n. apply nth_In. rewrite repeat_length. exact Hi. }
  assert (Ht : forall e, In e l -> ~ entry_tuple_true KList e).
  { intros e He. apply repeat_spec in He. subst e. intros [[E _]|[x [E _]]]; discriminate E. }
  destruct (snd (check_loop KList data 0 l)) as [[]|x]; cbn [bind].
  - split.
    + intros E. injection E as E. destruct (proj1 H (conj eq_refl E)) as [_ [B C]]. split; [exact B|]. intros i Hi. rewrite <- (Hn i Hi). apply C, Hi.
    + intros [B C]. destruct (proj2 H) as [_ <-]; [|reflexivity]. split; [exact Ht|split; [exact B|]]. intros j Hj. cbn [Nat.add]. rewrite (Hn j Hj). apply C, Hj.
  - split; [discriminate|]. intros [B C]. destruct (proj2 H) as [E _]; [|discriminate E].
    split; [exact Ht|split; [exact B|]]. intros j Hj. cbn [Nat.add]. rewrite (Hn j Hj). apply C, Hj.
Qed.

Lemma check_reflect_err n data arg x : data <> [] -> snd (check_reflect n data arg) = Err x ->
  x = ValueError
  \/ (x = TypeError /\ ((exists r, arg = RNum r) \/ exists k l e, arg = RSeq k l /\ In e l /\ entry_tuple_true k e)).
Proof.
  intros Hd. destruct arg as [| | |r|k l]; cbn [check_reflect].
  - discriminate.
  - discriminate.
  - cbv zeta. cbn [snd]. pose proof (check_loop_err KList data Hd (repeat (EAtom (VBool true)) n) 0) as H.
    destruct (snd (check_loop KList data 0 _)) as [u|y]; cbn [bind]; [discriminate|]. intros E; injection E as <-.
    destruct (H y eq_refl) as [|[_ [e [He Ht]]]]; [auto|]. exfalso. apply repeat_spec in He. subst e.
    destruct Ht as [[E _]|[z [E _]]]; discriminate E.
  - cbn. intros E. injection E as <-. eauto.
  - destruct (andb _ _).
    + assert (Hx : snd (A := rarg) (RSeq k l, Err ValueError (A := option reflspec)) = Err x -> x = ValueError) by (cbn; intros E; injection E as <-; reflexivity).
      destruct l as [|[a|] [|[b|] [|]]]; try (intros E; left; apply Hx, E).
      cbv zeta. cbn [snd]. set (e := ESeq KList _). pose proof (check_loop_err KList data Hd [e] 0) as H.
      destruct (snd (check_loop KList data 0 [e])) as [u|y]; cbn [bind]; [discriminate|]. intros E; injection E as <-.
      destruct (H y eq_refl) as [|[_ [e0 [[<-|[]] Ht]]]]; [auto|]. exfalso. destruct Ht as [[E _]|[z [E _]]]; discriminate E.
    + destruct (negb (Nat.eqb (length l) n)); [cbn; intros E; injection E as <-; auto|].
      destruct (negb (goods l)); [cbn; intros E; injection E as <-; auto|].
      cbv zeta. cbn [snd]. pose proof (check_loop_err k data Hd l 0) as H.
      destruct (snd (check_loop k data 0 l)) as [u|y]; cbn [bind]; [discriminate|]. intros E; injection E as <-.
      destruct (H y eq_refl) as [|[-> [e [He Ht]]]]; [auto|]. right. split; [reflexivity|]. right. eauto 10.
Qed.

Lemma check_reflect_none n data arg : snd (check_reflect n data arg) = Ok None <-> (arg = RNone \/ arg = RFalse).
Proof.
  split; [|intros [->| ->]; reflexivity].
  destruct arg as [| | |r|k l]; cbn [check_reflect]; auto.
  - cbv zeta. cbn [snd]. destruct (snd (check_loop _ _ _ _)); discriminate.
  - discriminate.
  - destruct (andb _ _).
    + destruct l as [|[a|] [|[b|] [|]]]; try discriminate. cbv zeta. cbn [snd]. destruct (snd (check_loop _ _ _ _)); discriminate.
    + destruct (negb (Nat.eqb (length l) n)); [discriminate|]. destruct (negb (goods l)); [discriminate|].
      cbv zeta. cbn [snd]. destruct (snd (check_loop _ _ _ _)); discriminate.
Qed.

(* C15 *)
Lemma num_pad_pos : 0 < num_pad < 1.
Proof. unfold num_pad. split; [apply Rinv_0_lt_compat; lra|]. rewrite <- Rinv_1. apply Rinv_lt_contravar; lra. Qed.

Lemma true_encloses_iff n data spec i : data <> [] -> snd (check_reflect n data RTrue) = Ok (Some spec) -> (i < n)%nat ->
  exists lo hi, nth i spec None = Some (Some lo, Some hi)
    /\ ((forall p, In p data -> lo <= p i <= hi) <-> (forall p, In p data -> 0 <= p i)).
Proof.
  intros Hd H Hi. apply (check_reflect_true n data spec Hd) in H. destruct H as [_ H]. destruct (H i Hi) as [Hm Ho].
  pose proof num_pad_pos as Hpad.
  inversion Hm as [|a b Ha Hb E1 E2|]. cbn [means_lo means_hi] in Ha, Hb.
  destruct Ha as [mn [Hmn ->]]. destruct Hb as [mx [Hmx ->]].
  exists (mn * (1 - num_pad)), (mx * (1 + num_pad)). split; [reflexivity|].
  destruct Hmn as [[p1 [Hp1 E3]] Hmn]. destruct Hmx as [[p2 [Hp2 E4]] Hmx]. split.
  - intros Hin p Hp. pose proof (proj1 (Hin p1 Hp1)). pose proof (Hmn p Hp). nra.
  - intros Hnn p Hp. pose proof (Hmn p Hp). pose proof (Hmx p Hp). pose proof (Hnn p1 Hp1). pose proof (Hnn p2 Hp2). nra.
Qed.

Lemma true_accepted_iff n data : data <> [] ->
  ((exists spec, snd (check_reflect n data RTrue) = Ok (Some spec))
   <-> forall i mn mx, (i < n)%nat -> is_min data i mn -> is_max data i mx -> mn * (1 - num_pad) < mx * (1 + num_pad)).
Proof.
  intros Hd. split.
  - intros [spec H] i mn mx Hi Hmn Hmx. apply (check_reflect_true n data spec Hd) in H. destruct H as [_ H]. destruct (H i Hi) as [Hm Ho].
    inversion Hm as [|a b Ha Hb E1 E2|]. cbn [means_lo means_hi] in Ha, Hb.
    destruct Ha as [mn' [Hmn' ->]]. destruct Hb as [mx' [Hmx' ->]]. rewrite <- E2 in Ho. cbn [ordered] in Ho.
    rewrite (is_min_unique _ _ _ _ Hmn Hmn'), (is_max_unique _ _ _ _ Hmx Hmx'). exact Ho.
  - intros H. set (g := (fun i => Some (Some (auto_lo data i), Some (auto_hi data i))) : nat -> option bnd). exists (map g (seq 0 n)).
    apply check_reflect_true; [exact Hd|]. split; [rewrite map_length, seq_length; reflexivity|].
    intros i Hi. rewrite (nth_indep _ None (g O)) by (rewrite map_length, seq_length; exact Hi).
    rewrite map_nth, seq_nth by exact Hi. cbn [Nat.add]. unfold g. split.
    + constructor; [apply means_lo_iff|apply means_hi_iff]; auto.
    + cbn. apply H with i; [exact Hi|apply is_min_lmin, Hd|apply is_max_lmax, Hd].
Qed.

(* C17 *)
Lemma check_entry_no_true ko data ii e : entry_no_true e -> fst (check_entry ko data ii e) = e.
Proof.
  intros [H1 H2]. destruct e as [v|k l]; cbn [check_entry].
  - destruct (is_true v) eqn:E; [|reflexivity]. exfalso. apply H1. destruct v as [|[]|]; try discriminate E. reflexivity.
  - destruct l as [|a [|b [|]]]; try reflexivity.
    assert (Ht : forall v, In v [a; b] -> is_true v = false).
    { intros v Hv. destruct (is_true v) eqn:E; [|reflexivity]. exfalso. apply (H2 k [a; b] eq_refl). destruct v as [|[]|]; try discriminate E. exact Hv. }
    unfold fill_true. rewrite !Ht by (cbn; auto). reflexivity.
Qed.
Lemma check_loop_no_true ko data : forall l ii, (forall e, In e l -> entry_no_true e) -> fst (check_loop ko data ii l) = l.
Proof.
  induction l as [|e l IH]; intros ii H; [reflexivity|]. cbn [check_loop].
  pose proof (check_entry_no_true ko data ii e (H e (or_introl eq_refl))) as He.
  destruct (check_entry ko data ii e) as [e' [u|x]]; cbn [fst] in *; subst e'; [|reflexivity].
  f_equal. apply IH. intros; apply H; right; assumption.
Qed.
Lemma check_reflect_no_true n data arg : no_true arg -> fst (check_reflect n data arg) = arg.
Proof.
  intros H. destruct arg as [| | |r|k l]; cbn [check_reflect]; try reflexivity.
  destruct (andb _ _); [destruct l as [|[a|] [|[b|] [|]]]; reflexivity|].
  destruct (negb (Nat.eqb (length l) n)); [reflexivity|]. destruct (negb (goods l)); [reflexivity|]. cbv zeta. cbn [fst].
  f_equal. apply check_loop_no_true. exact H.
Qed.

Lemma v_opt_opt_v o : v_opt (opt_v o) = o. Proof. destruct o; reflexivity. Qed.
Lemma embed_no_true spec : no_true (embed spec).
Proof.
  intros e He. apply in_map_iff in He. destruct He as [ob [<- _]]. destruct ob as [[[a|] [b|]]|]; (split; [discriminate|]);
  intros k l E; try discriminate E; injection E as <- <-; intros [H|[H|[]]]; discriminate H.
Qed.
Lemma embed_means data i ob : data <> [] -> forall ob', means data i (embed_entry ob) ob' <-> ob' = ob.
Proof.
  intros Hd ob'. split.
  - intros H. destruct ob as [[a b]|]; cbn [embed_entry] in H; inversion H as [| |k u v x y Ha Hb]; subst; [|reflexivity].
    apply means_lo_iff in Ha; [|exact Hd]. apply means_hi_iff in Hb; [|exact Hd]. subst. destruct a, b; reflexivity.
  - intros ->. destruct ob as [[a b]|]; cbn [embed_entry]; [|constructor]. constructor.
    + apply means_lo_iff; [exact Hd|]. destruct a; reflexivity.
    + apply means_hi_iff; [exact Hd|]. destruct b; reflexivity.
Qed.

(** Re-checking an accepted specification, for whatever data, returns it unchanged. *)
Lemma recheck n data (spec : reflspec) : data <> [] -> List.length spec = n ->
  (forall ob, In ob spec -> ordered ob) ->
  check_reflect n data (embed spec) = (embed spec, Ok (Some spec)).
Proof.
  intros Hd Hl Ho. rewrite (surjective_pairing (check_reflect n data (embed spec))). rewrite check_reflect_no_true by apply embed_no_true. f_equal.
  destruct (Nat.eq_dec (List.length spec) 2) as [E2|E2]; [destruct (Nat.eq_dec n 1) as [E1|E1]|].
  - lia.
  - apply check_reflect_seq; [exact Hd|right; exact E1|]. rewrite map_length. split; [exact Hl|]. split; [|split; [exact Hl|]].
    + intros e He. apply in_map_iff in He. destruct He as [ob [<- _]]. intros [[H _]|[l [H _]]]; [discriminate H|]. destruct ob as [[a b]|]; discriminate H.
    + intros i Hi. change (EAtom VNone) with (embed_entry None). rewrite map_nth. split; [apply embed_means; auto|]. apply Ho, nth_In. rewrite Hl. exact Hi.
  - apply check_reflect_seq; [exact Hd|left; rewrite map_length; exact E2|]. rewrite map_length. split; [exact Hl|]. split; [|split; [exact Hl|]].
    + intros e He. apply in_map_iff in He. destruct He as [ob [<- _]]. intros [[H _]|[l [H _]]]; [discriminate H|]. destruct ob as [[a b]|]; discriminate H.
    + intros i Hi. change (EAtom VNone) with (embed_entry None). rewrite map_nth. split; [apply embed_means; auto|]. apply Ho, nth_In. rewrite Hl. exact Hi.
Qed.

(** After an accepted call the caller's list no longer contains True, and means the same for every
    other data. *)
Lemma filled_entry data ii ko e e' : data <> [] -> check_entry ko data ii e = (e', Ok tt) -> entry_good e = Some true ->
  entry_no_true e' /\ entry_good e' = Some true /\ ordered (entry_spec e') /\ ~ entry_tuple_true ko e'
  /\ forall data' jj, data' <> [] -> means data' jj e' (entry_spec e').
Proof.
  intros Hd E Hg. destruct (proj1 (check_entry_ok ko data ii e (entry_spec e') Hd Hg)) as [Htt [_ Ho]]; [rewrite E; auto|].
  assert (Hn : forall v, v <> VBool true -> forall auto, fill_val auto v = v) by (intros [|[]|]; cbn; congruence).
  assert (Hf : forall auto v, fill_val auto v <> VBool true) by (intros auto [|[]|]; cbn; congruence).
  assert (Hpair : forall k a b, a <> VBool true -> b <> VBool true -> ordered (Some (v_opt a, v_opt b)) ->
     entry_no_true (ESeq k [a; b]) /\ entry_good (ESeq k [a; b]) = Some true /\ ordered (entry_spec (ESeq k [a; b])) /\ ~ entry_tuple_true ko (ESeq k [a; b])
     /\ forall data' jj, data' <> [] -> means data' jj (ESeq k [a; b]) (entry_spec (ESeq k [a; b]))).
  { intros k a b Ha Hb Hor. split; [|split; [reflexivity|split; [exact Hor|split]]].
    - split; [discriminate|]. intros k' l El. injection El as <- <-. intros [H|[H|[]]]; congruence.
    - intros [[_ H]|[l [H Hin]]]; [discriminate H|]. injection H as _ <-. destruct Hin as [H|[H|[]]]; congruence.
    - intros data' jj Hd'. cbn [entry_spec]. constructor; [apply means_lo_iff|apply means_hi_iff]; auto; rewrite Hn; auto. }
  destruct e as [v|k l].
  - cbn [check_entry] in E. destruct (is_true v) eqn:Ev.
    + destruct data; [contradiction|]. destruct ko; [|discriminate E]. injection E as <- E. apply Hpair; try discriminate; try (apply order_check_iff, E).
    + injection E as <-. cbn [entry_good] in Hg. rewrite Ev, Bool.orb_false_r in Hg. destruct v as [|b|]; try discriminate Hg.
      split; [split; [discriminate|intros; discriminate]|]. split; [reflexivity|]. split; [exact I|]. split; [exact Htt|]. intros. constructor.
  - cbn [entry_good] in Hg. injection Hg as Hg. apply Nat.eqb_eq in Hg. destruct l as [|a [|b [|]]]; try discriminate Hg.
    cbn [check_entry] in E. rewrite !fill_true_eq in E by exact Hd.
    assert (Hx : forall a' b', a' <> VBool true -> b' <> VBool true -> (ESeq k [a'; b'], order_check a' b') = (e', Ok tt) ->
       entry_no_true e' /\ entry_good e' = Some true /\ ordered (entry_spec e') /\ ~ entry_tuple_true ko e'
       /\ forall data' jj, data' <> [] -> means data' jj e' (entry_spec e')).
    { intros a' b' Ha Hb E'. injection E' as <- Eo. apply Hpair; assumption. }
    assert (Hnt : forall v, is_true v = false -> v <> VBool true) by (intros v H ->; discriminate H).
    destruct (is_true a) eqn:Ea; [destruct k; [|discriminate E]|]; (destruct (is_true b) eqn:Eb; [try (destruct k; [|discriminate E])|]);
      (eapply Hx; [| |exact E]; try discriminate; apply Hnt; assumption).
Qed.

Lemma filled_loop data ko : data <> [] -> forall l ii l', check_loop ko data ii l = (l', Ok tt) -> goods l = true ->
  length l' = length l /\ forall e', In e' l' -> entry_no_true e' /\ entry_good e' = Some true /\ ordered (entry_spec e') /\ ~ entry_tuple_true ko e'
  /\ forall data' jj, data' <> [] -> means data' jj e' (entry_spec e').
Proof.
  intros Hd. induction l as [|e l IH]; intros ii l' E Hg.
  - injection E as <-. split; [reflexivity|intros e' []].
  - cbn [goods forallb] in Hg. apply Bool.andb_true_iff in Hg. destruct Hg as [Hg1 Hg2].
    assert (Hge : entry_good e = Some true) by (destruct (entry_good e) as [[]|]; try discriminate; reflexivity).
    cbn [check_loop] in E. pose proof (filled_entry data ii ko e) as HE. destruct (check_entry ko data ii e) as [e1 [u|x]]; [|discriminate E].
    destruct u. cbv zeta in E. injection E as <- E2.
    destruct (check_loop ko data (S ii) l) as [l1 r1] eqn:El. cbn [fst snd] in *. subst r1.
    destruct (IH (S ii) l1 El Hg2) as [IH1 IH2]. split; [cbn [length]; rewrite IH1; reflexivity|].
    intros e' [<-|H]; [exact (HE e1 Hd eq_refl Hge)|exact (IH2 e' H)].
Qed.

Lemma caller_list_filled n data k l arg' spec : data <> [] -> (length l <> 2%nat \/ n <> 1%nat) ->
  check_reflect n data (RSeq k l) = (arg', Ok (Some spec)) ->
  no_true arg' /\ forall data', data' <> [] -> check_reflect n data' arg' = (arg', Ok (Some spec)).
Proof.
  intros Hd Hc E. cbn [check_reflect] in E.
  assert (E0 : andb (Nat.eqb (length l) 2) (Nat.eqb n 1) = false).
  { destruct (Nat.eqb_spec (length l) 2), (Nat.eqb_spec n 1); try reflexivity. destruct Hc; contradiction. }
  rewrite E0 in E. destruct (Nat.eqb_spec (length l) n) as [Hl|Hl]; cbn [negb] in E; [|discriminate E].
  destruct (goods l) eqn:Hg; cbn [negb] in E; [|discriminate E]. cbv zeta in E.
  destruct (check_loop k data 0 l) as [l' r] eqn:El. cbn [fst snd] in E. destruct r as [[]|]; [|discriminate E]. cbn [bind] in E. injection E as <- <-.
  destruct (filled_loop data k Hd l 0 l' El Hg) as [Hlen Hf].
  assert (Hnt : no_true (RSeq k l')) by (intros e He; apply (Hf e He)). split; [exact Hnt|].
  intros data' Hd'. rewrite (surjective_pairing (check_reflect n data' (RSeq k l'))), check_reflect_no_true by exact Hnt. f_equal.
  apply check_reflect_seq; [exact Hd'|destruct Hc; [left; congruence|right; assumption]|].
  split; [congruence|]. split; [intros e He; apply (Hf e He)|]. split; [rewrite map_length; congruence|].
  intros i Hi. assert (Hin : In (nth i l' (EAtom VNone)) l') by (apply nth_In; congruence).
  change (@None bnd) with (entry_spec (EAtom VNone)). rewrite map_nth. destruct (Hf _ Hin) as (_ & _ & Ho & _ & Hm). split; [apply Hm, Hd'|exact Ho].
Qed.

(* C16 *)
Lemma pair_true_num data k x : data <> [] ->
  check_reflect 1 data (RSeq k [EAtom (VBool true); EAtom (VNum x)]) =
  (RSeq k [EAtom (VBool true); EAtom (VNum x)], if Rlt_dec 1 x then Ok (Some [Some (Some 1, Some x)]) else Err ValueError).
Proof.
  intros Hd. cbn [check_reflect length Nat.eqb andb]. cbv zeta. f_equal. cbn. unfold order_check. cbn.
  destruct (Rleb_spec x 1), (Rlt_dec 1 x); try reflexivity; exfalso; lra.
Qed.
Lemma pair_true_true data k : data <> [] ->
  check_reflect 1 data (RSeq k [EAtom (VBool true); EAtom (VBool true)]) =
  (RSeq k [EAtom (VBool true); EAtom (VBool true)], Err ValueError).
Proof.
  intros Hd. cbn [check_reflect length Nat.eqb andb]. cbv zeta. f_equal. cbn. unfold order_check. cbn.
  destruct (Rleb_spec 1 1); [reflexivity|exfalso; lra].
Qed.
Lemma pair_true_none data k m : data <> [] -> is_min data 0 m ->
  check_reflect 1 data (RSeq k [EAtom (VBool true); EAtom VNone]) =
  (RSeq k [EAtom (VBool true); EAtom VNone], Ok (Some [Some (Some (m * (1 - num_pad)), None)])).
Proof.
  intros Hd Hm. cbn [check_reflect length Nat.eqb andb]. cbv zeta. f_equal. cbn. destruct data; [contradiction|]. cbn.
  unfold auto_lo. rewrite (is_min_unique _ _ _ _ Hm (is_min_lmin _ O Hd)). reflexivity.
Qed.

(* C17 for the public calls *)
Lemma density_reflect_no_true n ddim data arg : no_true arg -> fst (density_reflect n ddim data arg) = arg.
Proof.
  intros H. destruct arg as [| | |r|k l]; try reflexivity. cbn [density_reflect].
  destruct (orb _ _); [|reflexivity]. apply check_reflect_no_true, H.
Qed.
Lemma calls_no_true arg : no_true arg ->
  (forall n data w b diag resc d cova neffa, fst (kde_new n data w b diag resc d cova neffa arg) = arg)
  /\ (forall K (prob : bool) pdim p, fst (density_call K prob pdim arg p) = arg).
Proof.
  intros H. split.
  - intros. unfold kde_new. cbn [fst]. apply check_reflect_no_true, H.
  - intros. unfold density_call. destruct (resolve_params K p); [|reflexivity]. cbv zeta. cbn [fst]. apply density_reflect_no_true, H.
Qed.

(* the per-call reflect argument *)
Lemma density_call_atoms K (prob : bool) pdim p ops : resolve_params K p = Ok ops ->
  snd (density_call K prob pdim RNone p) = kde_density K prob pdim None p
  /\ snd (density_call K prob pdim RTrue p) = Err TypeError
  /\ snd (density_call K prob pdim RFalse p) = Err TypeError.
Proof. intros E. unfold density_call. rewrite E. repeat split. Qed.

Lemma kde_density_stored K (prob : bool) pdim r : kd_reflect K = Some r ->
  kde_density K prob pdim None PNone = kde_density K prob pdim (Some r) PNone.
Proof. intros E. unfold kde_density. cbn [resolve_params bind]. rewrite E. reflexivity. Qed.

Lemma density_call_embed K (prob : bool) pdim r : kd_data K <> [] -> List.length r = kd_ndim K -> (forall ob, In ob r -> ordered ob) ->
  density_call K prob pdim (embed r) PNone = (embed r, kde_density K prob pdim (Some r) PNone).
Proof.
  intros Hd Hl Ho. unfold density_call. cbn [resolve_params]. cbv zeta.
  assert (E : density_reflect (kd_ndim K) (kd_ndim K) (kd_data K) (embed r) = check_reflect (kd_ndim K) (kd_data K) (embed r)).
  { unfold density_reflect, embed. rewrite map_length. destruct (Nat.eqb_spec (List.length r) (kd_ndim K)); [reflexivity|contradiction]. }
  rewrite E, (recheck _ _ _ Hd Hl Ho). reflexivity.
Qed.

(** What the constructor stores is accepted unchanged by every later check (kde.py:381). *)
Lemma kde_new_stored n data w b diag resc d cova neffa arg K r :
  snd (kde_new n data w b diag resc d cova neffa arg) = Ok K -> kd_reflect K = Some r ->
  List.length r = n /\ (forall ob, In ob r -> ordered ob)
  /\ forall data', data' <> [] -> check_reflect n data' (embed r) = (embed r, Ok (Some r)).
Proof.
  unfold kde_new. cbn [snd]. destruct (snd (check_reflect n data arg)) as [spec|] eqn:E; [|discriminate]. cbn [bind]. intros HK Hr.
  assert (Hd : data <> []). { intros ->. cbn in HK. discriminate HK. }
  assert (Hs : spec = Some r).
  { unfold kde_init in HK. destruct (Nat.eqb _ 0); [discriminate HK|]. destruct (check_weights _ _); [|discriminate HK]. cbn [bind] in HK.
    destruct (set_bandwidth _ _ _ _ _); [|discriminate HK]. cbn [bind] in HK. injection HK as <-. exact Hr. }
  subst spec.
  assert (HH : List.length r = n /\ forall ob, In ob r -> ordered ob).
  { destruct arg as [| | |x|k l]; try discriminate E.
    - apply (check_reflect_true n data r Hd) in E. destruct E as [H1 H2]. split; [exact H1|]. intros ob Hob.
      destruct (In_nth r ob None Hob) as [i [Hi <-]]. rewrite H1 in Hi. apply (H2 i Hi).
    - destruct (Nat.eq_dec (length l) 2) as [E2|E2]; [destruct (Nat.eq_dec n 1) as [->|E1]|].
      + cbn [check_reflect] in E. rewrite E2 in E. cbn [Nat.eqb andb] in E.
        destruct l as [|[a|] [|[b0|] [|]]]; try discriminate E.
        apply (check_reflect_pair data k a b0 r Hd) in E. destruct E as [ob [-> [Ho _]]]. split; [reflexivity|]. intros ob' [<-|[]]. exact Ho.
      + apply check_reflect_seq in E; [|exact Hd|right; exact E1]. destruct E as [_ [_ [H1 H2]]]. split; [exact H1|]. intros ob Hob.
        destruct (In_nth r ob None Hob) as [i [Hi <-]]. rewrite H1 in Hi. apply (H2 i Hi).
      + apply check_reflect_seq in E; [|exact Hd|left; exact E2]. destruct E as [_ [_ [H1 H2]]]. split; [exact H1|]. intros ob Hob.
        destruct (In_nth r ob None Hob) as [i [Hi <-]]. rewrite H1 in Hi. apply (H2 i Hi). }
  destruct HH as [HL HO]. split; [exact HL|]. split; [exact HO|]. intros data' Hd'. apply recheck; assumption.
Qed.

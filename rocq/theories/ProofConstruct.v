From Coq Require Import FunctionalExtensionality.
From Verif Require Import Base ModelLinAlg ModelKernels ModelKDE ModelExtrema ModelReflect ModelDist ModelConstruct SpecKDE ProofKDE SpecReflect ProofReflectArg SpecConstruct.
Open Scope R_scope.

Lemma is_none_iff v : is_none v = true <-> v = VNone.
Proof. destruct v; cbn; split; intros; congruence. Qed.
Lemma v_num_of v : v <> VNone -> num_of v (v_num v).
Proof. destruct v as [|[]|]; cbn; intros; auto; congruence. Qed.
Lemma fill_pair_cases k a b d :
  (stuck_pair k a b /\ fill_pair k a b d = Err TypeError)
  \/ (~ stuck_pair k a b /\ exists lo hi, fill_pair k a b d = Ok (lo, hi) /\ end_is a (fst d) lo /\ end_is b (snd d) hi).
Proof.
  destruct k; cbn [fill_pair].
  - right. split; [intros [E _]; discriminate E|]. unfold fill, v_opt, end_is.
    destruct a as [|[]|], b as [|[]|]; eexists; eexists; (split; [reflexivity|]); split; cbn; auto; right; reflexivity.
  - destruct (is_none a) eqn:Ea; [|destruct (is_none b) eqn:Eb]; cbn [orb].
    + left. apply is_none_iff in Ea. split; [split; auto|reflexivity].
    + left. apply is_none_iff in Eb. split; [split; auto|reflexivity].
    + right. assert (a <> VNone) by (intros ->; discriminate Ea). assert (b <> VNone) by (intros ->; discriminate Eb).
      split; [intros [_ [?|?]]; contradiction|]. exists (v_num a), (v_num b). split; [reflexivity|]. split; right; apply v_num_of; assumption.
Qed.

Lemma scalar_elem_iff l : forallb scalar_elem l = true <-> forall e, In e l -> is_scalar e.
Proof.
  rewrite forallb_forall. split; intros H e He; specialize (H e He).
  - destruct e; [eexists; reflexivity|discriminate H].
  - destruct H as [v ->]. reflexivity.
Qed.
Lemma scalar_elem_false l : forallb scalar_elem l = false -> exists e, In e l /\ ~ is_scalar e.
Proof.
  induction l as [|e l IH]; cbn [forallb]; [discriminate|]. destruct e as [v|k s]; cbn [scalar_elem andb]; intros H.
  - destruct (IH H) as [e [He Hn]]. exists e. split; [right; exact He|exact Hn].
  - exists (ESeq k s). split; [left; reflexivity|]. intros [v E]. discriminate E.
Qed.

(** One dimension's entry: None, or a pair with the ends that are given. *)
Definition entry_is (e : relem) (d p : R * R) : Prop :=
  (e = EAtom VNone /\ p = d)
  \/ exists k a b, e = ESeq k [a; b] /\ end_is a (fst d) (fst p) /\ end_is b (snd d) (snd p).
Lemma fill_entry_cases ko e d : e = EAtom VNone \/ is_pair e ->
  (stuck_entry ko e /\ fill_entry ko e d = Err TypeError)
  \/ (~ stuck_entry ko e /\ exists p, fill_entry ko e d = Ok p /\ entry_is e d p).
Proof.
  intros [->|[k [a [b ->]]]].
  - destruct ko; cbn [fill_entry].
    + right. split; [|exists d; split; [reflexivity|left; auto]]. intros [[E _]|[? [? [? [E _]]]]]; discriminate E.
    + left. split; [left; auto|reflexivity].
  - cbn [fill_entry]. destruct (fill_pair_cases k a b d) as [[H E]|[H [lo [hi [E [H1 H2]]]]]].
    + left. split; [right; exists k, a, b; auto|exact E].
    + right. split; [|exists (lo, hi); split; [exact E|right; exists k, a, b; auto]].
      intros [[_ E']|[k' [a' [b' [E' H']]]]]; [discriminate E'|]. injection E' as <- <- <-. contradiction (H H').
Qed.
Lemma mapM_fill ko : forall l dext, length l = length dext -> (forall e, In e l -> e = EAtom VNone \/ is_pair e) ->
  ((exists e, In e l /\ stuck_entry ko e) /\ mapM (fun de => fill_entry ko (snd de) (fst de)) (combine dext l) = Err TypeError)
  \/ ((forall e, In e l -> ~ stuck_entry ko e)
      /\ exists r, mapM (fun de => fill_entry ko (snd de) (fst de)) (combine dext l) = Ok r /\ length r = length dext
         /\ forall i, (i < length dext)%nat -> entry_is (nth i l (EAtom VNone)) (nth i dext (0, 0)) (nth i r (0, 0))).
Proof.
  induction l as [|e l IH]; intros [|d dext] Hl Hall; try discriminate Hl.
  - right. split; [intros e []|]. exists []. split; [reflexivity|]. split; [reflexivity|]. cbn. intros i Hi. lia.
  - cbn [combine mapM fst snd]. injection Hl as Hl.
    destruct (fill_entry_cases ko e d (Hall e (or_introl eq_refl))) as [[H E]|[H [p [E Hp]]]]; rewrite E; cbn [bind].
    + left. split; [exists e; split; [left; reflexivity|exact H]|reflexivity].
    + destruct (IH dext Hl (fun e' He => Hall e' (or_intror He))) as [[[e' [He' H']] E']|[H' [r [E' [Hr Hn]]]]]; rewrite E'; cbn [bind].
      * left. split; [exists e'; split; [right; exact He'|exact H']|reflexivity].
      * right. split; [intros e' [<-|He]; [exact H|apply H'; exact He]|]. exists (p :: r). split; [reflexivity|].
        split; [cbn [length]; lia|]. intros [|i] Hi; cbn [nth]; [exact Hp|]. apply Hn. cbn [length] in Hi. lia.
Qed.

Lemma existsb_false A (f : A -> bool) l : existsb f l = false -> forall a, In a l -> f a = false.
Proof. intros H a Ha. destruct (f a) eqn:E; [|reflexivity]. assert (existsb f l = true) by (apply existsb_exists; eauto). congruence. Qed.

(** Every argument, with at least one dimension. *)
Lemma parse_py_outcome dext arg : dext <> [] ->
  (readable (length dext) arg /\ exists r, parse_extrema_py dext arg = Ok r)
  \/ (~ readable (length dext) arg /\ bad_shape (length dext) arg /\ parse_extrema_py dext arg = Err ValueError)
  \/ (~ readable (length dext) arg /\ ~ bad_shape (length dext) arg /\ parse_extrema_py dext arg = Err TypeError).
Proof.
  intros Hd. destruct arg as [| | |r|k l]; cbn [parse_extrema_py readable].
  - left. split; [exact I|eauto].
  - right. right. split; [auto|]. split; [intros [? [? [E _]]]; discriminate E|reflexivity].
  - right. right. split; [auto|]. split; [intros [? [? [E _]]]; discriminate E|reflexivity].
  - right. right. split; [auto|]. split; [intros [? [? [E _]]]; discriminate E|reflexivity].
  - destruct (forallb scalar_elem l) eqn:Es.
    + pose proof (proj1 (scalar_elem_iff l) Es) as Hs.
      assert (Hnp : ~ per_dimension (length dext) l).
      { intros [_ [_ [e [He [k' [a [b ->]]]]]]]. destruct (Hs _ He) as [v E]. discriminate E. }
      destruct dext as [|d0 dext]; [contradiction Hd; reflexivity|].
      assert (HV : length l <> 2%nat -> ~ ((exists a b, l = [EAtom a; EAtom b] /\ ~ stuck_pair k a b) \/ (per_dimension (length (d0 :: dext)) l /\ forall e, In e l -> ~ stuck_entry k e))
        /\ bad_shape (length (d0 :: dext)) (RSeq k l)).
      { intros Hn. split; [intros [[a [b [-> _]]]|[H _]]; [apply Hn; reflexivity|contradiction]|]. exists k, l. split; [reflexivity|]. left. auto. }
      destruct l as [|e1 [|e2 [|e3 l]]];
        try (destruct HV as [HV1 HV2]; [cbn; lia|]; right; left; split; [exact HV1|]; split; [exact HV2|];
             try destruct e1 as [a|]; try destruct e2 as [b|]; reflexivity).
      destruct (Hs e1 (or_introl eq_refl)) as [a ->]. destruct (Hs e2 (or_intror (or_introl eq_refl))) as [b ->].
      destruct (fill_pair_cases k a b d0) as [[H E]|[H [lo [hi [E _]]]]]; rewrite E; cbn [bind].
      * right. right. split; [|split; [|reflexivity]].
        -- intros [[a' [b' [E' H']]]|[H' _]]; [injection E' as <- <-; contradiction|contradiction].
        -- intros [k' [l' [E' H']]]. injection E' as <- <-. destruct H' as [[_ H']|[[e [He Hn]] _]]; [apply H'; reflexivity|]. apply Hn, Hs, He.
      * left. split; [|eauto]. left. exists a, b. auto.
    + destruct (scalar_elem_false l Es) as [e0 [He0 Hn0]].
      assert (Hnf : ~ (exists a b, l = [EAtom a; EAtom b] /\ ~ stuck_pair k a b)).
      { intros [a [b [-> _]]]. discriminate Es. }
      destruct (Nat.eqb_spec (length l) (length dext)) as [Hl|Hl]; cbn [negb].
      2:{ right. left. split; [intros [H|[[H _] _]]; contradiction|]. split; [|reflexivity]. exists k, l. split; [reflexivity|]. right. split; [eauto|]. left. exact Hl. }
      destruct (existsb (fun e => match e with EAtom v => negb (is_none v) | _ => false end) l) eqn:En.
      { apply existsb_exists in En. destruct En as [e [He Hb]]. destruct e as [v|]; [|discriminate Hb].
        assert (Hv : v <> VNone) by (intros ->; discriminate Hb).
        right. right. split; [|split; [|reflexivity]].
        - intros [H|[[_ [H _]] _]]; [contradiction|]. destruct (H _ He) as [E|[? [? [? E]]]]; [injection E as E; contradiction|discriminate E].
        - intros [k' [l' [E H]]]. injection E as <- <-. destruct H as [[H _]|[_ [H|[H _]]]].
          + apply Hn0, H, He0.
          + contradiction.
          + apply (H _ He). exists v. auto. }
      pose proof (existsb_false _ _ _ En) as Hno.
      assert (Hnn : forall e, In e l -> ~ is_number e).
      { intros e He [v [-> Hv]]. specialize (Hno _ He). cbn in Hno. destruct v; try discriminate Hno. apply Hv. reflexivity. }
      destruct (existsb (fun e => match e with ESeq _ s => negb (Nat.eqb (length s) 2) | _ => false end) l) eqn:E2.
      { apply existsb_exists in E2. destruct E2 as [e [He Hb]]. destruct e as [|k' s]; [discriminate Hb|].
        assert (Hls : length s <> 2%nat) by (destruct (Nat.eqb_spec (length s) 2); [discriminate Hb|assumption]).
        right. left. split; [|split; [|reflexivity]].
        - intros [H|[[_ [H _]] _]]; [contradiction|]. destruct (H _ He) as [E|[? [? [? E]]]]; [discriminate E|]. injection E as _ ->. apply Hls. reflexivity.
        - exists k, l. split; [reflexivity|]. right. split; [eauto|]. right. split; [exact Hnn|]. exists k', s. auto. }
      assert (Hall : forall e, In e l -> e = EAtom VNone \/ is_pair e).
      { intros e He. destruct e as [v|k' s].
        - left. destruct v; [reflexivity| |]; contradiction (Hnn _ He); eexists; split; try reflexivity; discriminate.
        - right. pose proof (existsb_false _ _ _ E2 _ He) as H. cbn in H. destruct (Nat.eqb_spec (length s) 2) as [Hls|]; [|discriminate H].
          destruct s as [|a [|b [|? ?]]]; try discriminate Hls. exists k', a, b. reflexivity. }
      assert (Hpd : per_dimension (length dext) l).
      { split; [exact Hl|]. split; [exact Hall|]. exists e0. split; [exact He0|]. destruct (Hall e0 He0) as [->|H]; [|exact H]. contradiction Hn0. exists VNone. reflexivity. }
      destruct (mapM_fill k l dext Hl Hall) as [[[e [He Hst]] E]|[Hst [r [E _]]]]; rewrite E.
      * right. right. split; [|split; [|reflexivity]].
        -- intros [H|[_ H]]; [contradiction|]. apply (H e He Hst).
        -- intros [k' [l' [E' H]]]. injection E' as <- <-. destruct H as [[H _]|[_ [H|[_ [k' [s [Hi Hs]]]]]]].
           ++ apply Hn0, H, He0.
           ++ contradiction.
           ++ destruct (Hall _ Hi) as [E'|[? [? [? E']]]]; [discriminate E'|]. injection E' as _ ->. apply Hs. reflexivity.
      * left. split; [|eauto]. right. split; [exact Hpd|exact Hst].
Qed.

(** What is read. *)
Lemma parse_py_flat d0 dext k a b r : parse_extrema_py (d0 :: dext) (RSeq k [EAtom a; EAtom b]) = Ok r ->
  exists p, r = repeat p (S (length dext)) /\ end_is a (fst d0) (fst p) /\ end_is b (snd d0) (snd p).
Proof.
  cbn [parse_extrema_py forallb scalar_elem andb]. destruct (fill_pair_cases k a b d0) as [[_ E]|[_ [lo [hi [E [H1 H2]]]]]]; rewrite E; cbn [bind]; [discriminate|].
  intros E'. injection E' as <-. exists (lo, hi). split; [|auto]. cbn [map repeat]. f_equal. clear. induction dext; [reflexivity|]. cbn [map length repeat]. f_equal. exact IHdext.
Qed.
Lemma parse_py_each dext k l r : per_dimension (length dext) l -> parse_extrema_py dext (RSeq k l) = Ok r ->
  length r = length dext /\ forall i, (i < length dext)%nat ->
    (nth i l (EAtom VNone) = EAtom VNone -> nth i r (0, 0) = nth i dext (0, 0))
    /\ forall k' a b, nth i l (EAtom VNone) = ESeq k' [a; b] ->
         end_is a (fst (nth i dext (0, 0))) (fst (nth i r (0, 0))) /\ end_is b (snd (nth i dext (0, 0))) (snd (nth i r (0, 0))).
Proof.
  intros [Hl [Hall [e0 [He0 [k0 [a0 [b0 ->]]]]]]] H. cbn [parse_extrema_py] in H.
  destruct (forallb scalar_elem l) eqn:Es. { apply scalar_elem_iff with (e := ESeq k0 [a0; b0]) in Es; [|exact He0]. destruct Es as [v E]. discriminate E. }
  rewrite Hl, Nat.eqb_refl in H. cbn [negb] in H.
  destruct (existsb _ l); [discriminate H|]. destruct (existsb _ l); [discriminate H|].
  destruct (mapM_fill k l dext Hl Hall) as [[_ E]|[_ [r' [E [Hr Hn]]]]]; rewrite E in H; [discriminate H|]. injection H as <-.
  split; [exact Hr|]. intros i Hi. specialize (Hn i Hi). split.
  - intros En. rewrite En in Hn. destruct Hn as [[_ H]|[? [? [? [H _]]]]]; [exact H|discriminate H].
  - intros k' a b En. rewrite En in Hn. destruct Hn as [[H _]|[? [? [? [H [H1 H2]]]]]]; [discriminate H|]. injection H as <- <- <-. auto.
Qed.

(* ---------------------------------------------------------------- the constructor *)
Lemma new_dims n data w b diag resc d cova neffa refl K : snd (kde_new n data w b diag resc d cova neffa refl) = Ok K ->
  kd_ndim K = n /\ data <> [] /\ exists spec, snd (check_reflect n data refl) = Ok spec /\ kd_reflect K = spec.
Proof.
  unfold kde_new. cbn [snd]. destruct (snd (check_reflect n data refl)) as [spec|] eqn:E; [|discriminate]. cbn [bind]. intros HK.
  destruct (kde_init_inv _ _ _ _ _ _ _ _ _ _ _ HK) as [bw [En [Ed [Hne [Er _]]]]]. split; [exact En|]. split; [exact Hne|]. exists spec. auto.
Qed.
Lemma eff_or_length K ppf eff : eff_or K ppf = Some eff -> length eff = kd_ndim K.
Proof.
  unfold eff_or. destruct (kd_kernel K) as [kern|]; [|discriminate]. destruct (ext_out _ _ _); [|discriminate]. intros E. injection E as <-.
  rewrite map_length. unfold eff_extrema. rewrite map_length, seq_length. reflexivity.
Qed.

Lemma construct_outcome n data w b diag resc d cova neffa refl user ppf K : (1 <= n)%nat ->
  snd (kde_new n data w b diag resc d cova neffa refl) = Ok K ->
  let obj := extrema_object user (reflect_object n data refl) in
  (readable n obj /\ exists e, kde_construct n data w b diag resc d cova neffa refl user ppf = Ok (K, e))
  \/ (~ readable n obj /\ bad_shape n obj /\ kde_construct n data w b diag resc d cova neffa refl user ppf = Err ValueError)
  \/ (~ readable n obj /\ ~ bad_shape n obj /\ kde_construct n data w b diag resc d cova neffa refl user ppf = Err TypeError).
Proof.
  intros Hn HK obj. unfold kde_construct. rewrite HK. cbn [bind]. fold obj. destruct (new_dims _ _ _ _ _ _ _ _ _ _ _ HK) as [En _].
  destruct (eff_or K ppf) as [eff|] eqn:Ee.
  - assert (EL : length eff = n) by (rewrite <- En; eapply eff_or_length, Ee).
    assert (Hne : eff <> []) by (intros ->; cbn in EL; lia).
    pose proof (parse_py_outcome eff obj Hne) as H. rewrite EL in H.
    destruct H as [[H [r E]]|[[H1 [H2 E]]|[H1 [H2 E]]]]; rewrite E; cbn [bind]; eauto 6.
  - assert (EL : length (repeat (0, 0) n) = n) by apply repeat_length.
    assert (Hne : repeat (0, 0) n <> []) by (intros E; rewrite E in EL; cbn in EL; lia).
    pose proof (parse_py_outcome (repeat (0, 0) n) obj Hne) as H. rewrite EL in H.
    destruct H as [[H [r E]]|[[H1 [H2 E]]|[H1 [H2 E]]]]; rewrite E; cbn [bind]; eauto 6.
Qed.

(** An entry before and after the check. *)
Inductive kept : relem -> relem -> Prop :=
| kept_none : kept (EAtom VNone) (EAtom VNone)
| kept_true lo hi : kept (EAtom (VBool true)) (ESeq KList [VNum lo; VNum hi])
| kept_pair k a b a' b' : (a' = VNone <-> a = VNone) -> (b' = VNone <-> b = VNone) -> kept (ESeq k [a; b]) (ESeq k [a'; b']).
Lemma kept_entry ko data ii e e' : entry_good e = Some true -> check_entry ko data ii e = (e', Ok tt) -> kept e e'.
Proof.
  destruct e as [v|k l]; cbn [entry_good check_entry].
  - destruct (is_true v) eqn:Et.
    + destruct v as [|[]|]; try discriminate Et. intros _. destruct data; [discriminate|]. destruct ko; [|discriminate]. intros E. injection E as <- _. constructor.
    + rewrite Bool.orb_false_r. destruct (is_none v) eqn:En; [|discriminate]. apply is_none_iff in En. subst v. intros _ E. injection E as <-. constructor.
  - intros Hl. destruct l as [|a [|b [|]]]; try discriminate Hl.
    assert (HT : forall au v v', fill_true k data au v = (v', Ok tt) -> (v' = VNone <-> v = VNone)).
    { intros au v v'. unfold fill_true. destruct (is_true v) eqn:Ev.
      - destruct data; [discriminate|]. destruct k; [|discriminate]. intros E. injection E as <-. destruct v as [|[]|]; try discriminate Ev. split; discriminate.
      - intros E. injection E as <-. reflexivity. }
    destruct (fill_true k data (auto_lo data ii) a) as [a' [[]|]] eqn:Ea; [|discriminate].
    destruct (fill_true k data (auto_hi data ii) b) as [b' [[]|]] eqn:Eb; [|discriminate].
    intros E. injection E as <- _. constructor; eapply HT; eassumption.
Qed.
Lemma kept_loop ko data : forall l ii, goods l = true -> snd (check_loop ko data ii l) = Ok tt -> Forall2 kept l (fst (check_loop ko data ii l)).
Proof.
  induction l as [|e l IH]; intros ii Hg; [constructor|]. cbn [goods forallb] in Hg. apply Bool.andb_true_iff in Hg. destruct Hg as [Hg1 Hg2].
  assert (Hge : entry_good e = Some true) by (destruct (entry_good e) as [[]|]; try discriminate; reflexivity).
  cbn [check_loop]. destruct (check_entry ko data ii e) as [e' [[]|]] eqn:E; [|discriminate]. cbv zeta. cbn [fst snd]. intros H.
  constructor; [eapply kept_entry; eassumption|]. apply IH; assumption.
Qed.
Lemma kept_stuck ko e e' : kept e e' -> e <> EAtom (VBool true) -> (stuck_entry ko e <-> stuck_entry ko e').
Proof.
  intros H Ht. destruct H as [|lo hi|k a b a' b' Ha Hb]; [reflexivity|contradiction Ht; reflexivity|]. unfold stuck_entry. split.
  - intros [[_ E]|[k1 [a1 [b1 [E [Hk H]]]]]]; [discriminate E|]. injection E as <- <- <-. right. exists k, a', b'. split; [reflexivity|]. split; [exact Hk|tauto].
  - intros [[_ E]|[k1 [a1 [b1 [E [Hk H]]]]]]; [discriminate E|]. injection E as <- <- <-. right. exists k, a, b. split; [reflexivity|]. split; [exact Hk|tauto].
Qed.
Lemma kept_stuck' ko e e' : kept e e' -> (stuck_entry ko e' <-> stuck_entry ko e).
Proof.
  intros H. destruct H as [|lo hi|k a b a' b' Ha Hb]; [reflexivity| |].
  - split; intros [[_ E]|[k1 [a1 [b1 [E [Hk H]]]]]]; try discriminate E. injection E as <- _ _. discriminate Hk.
  - symmetry. apply kept_stuck; [constructor; assumption|discriminate].
Qed.
Lemma Forall2_In_r A B (P : A -> B -> Prop) l l' : Forall2 P l l' -> forall b, In b l' -> exists a, In a l /\ P a b.
Proof. induction 1; intros b0 Hb; [destruct Hb|]. destruct Hb as [<-|Hb]; [eexists; split; [left; reflexivity|assumption]|]. destruct (IHForall2 _ Hb) as [a [Ha Hp]]. exists a. split; [right; exact Ha|exact Hp]. Qed.
Lemma Forall2_In_l A B (P : A -> B -> Prop) l l' : Forall2 P l l' -> forall a, In a l -> exists b, In b l' /\ P a b.
Proof. induction 1; intros a0 Ha; [destruct Ha|]. destruct Ha as [<-|Ha]; [eexists; split; [left; reflexivity|assumption]|]. destruct (IHForall2 _ Ha) as [b [Hb Hp]]. exists b. split; [right; exact Hb|exact Hp]. Qed.
Lemma Forall2_len A B (P : A -> B -> Prop) l l' : Forall2 P l l' -> length l' = length l.
Proof. induction 1; cbn [length]; lia. Qed.

Lemma no_limits_dec (l : list relem) : no_limits l \/ ~ no_limits l.
Proof.
  induction l as [|e l IH]; [left; intros e []|].
  assert (He : e = EAtom VNone \/ e <> EAtom VNone) by (destruct e as [[]|]; try (right; discriminate); left; reflexivity).
  destruct He as [->|He]; [|right; intros H; apply He, H; left; reflexivity].
  destruct IH as [H|H]; [left; intros e [<-|Hi]; [reflexivity|apply H, Hi]|right; intros H'; apply H; intros e Hi; apply H'; right; exact Hi].
Qed.

Lemma kept_readable n k l l' : Forall2 kept l l' -> length l = n -> (1 <= n)%nat ->
  (readable n (RSeq k l') <-> ((~ no_limits l /\ forall e, In e l -> ~ stuck_entry k e) \/ (n = 2%nat /\ k = KList /\ no_limits l)))
  /\ (bad_shape n (RSeq k l') <-> (n <> 2%nat /\ no_limits l)).
Proof.
  intros HF Hl Hn. pose proof (Forall2_len _ _ _ _ _ HF) as Hl'. rewrite Hl in Hl'.
  assert (Hall : forall e', In e' l' -> e' = EAtom VNone \/ is_pair e').
  { intros e' H. destruct (Forall2_In_r _ _ _ _ _ HF e' H) as [e [_ Hk]]. destruct Hk; [left; reflexivity| |]; right; eexists; eexists; eexists; reflexivity. }
  assert (Hno : no_limits l <-> no_limits l').
  { split; intros H e He.
    - destruct (Forall2_In_r _ _ _ _ _ HF e He) as [e0 [H0 Hk]]. rewrite (H e0 H0) in Hk. inversion Hk. reflexivity.
    - destruct (Forall2_In_l _ _ _ _ _ HF e He) as [e0 [H0 Hk]]. rewrite (H e0 H0) in Hk. inversion Hk. reflexivity. }
  assert (Hst : (forall e, In e l -> ~ stuck_entry k e) <-> (forall e, In e l' -> ~ stuck_entry k e)).
  { split; intros H e He Hs.
    - destruct (Forall2_In_r _ _ _ _ _ HF e He) as [e0 [H0 Hk]]. apply (H e0 H0). apply (kept_stuck' k _ _ Hk). exact Hs.
    - destruct (Forall2_In_l _ _ _ _ _ HF e He) as [e0 [H0 Hk]]. apply (H e0 H0). apply (kept_stuck' k _ _ Hk). exact Hs. }
  assert (Hsc : no_limits l' <-> forall e, In e l' -> is_scalar e).
  { split; intros H e He; [rewrite (H e He); exists VNone; reflexivity|]. destruct (Hall e He) as [|[? [? [? ->]]]]; [assumption|]. destruct (H _ He) as [v E]. discriminate E. }
  assert (Hpd : ~ no_limits l' <-> per_dimension n l').
  { split.
    - intros H. split; [exact Hl'|]. split; [exact Hall|]. destruct (forallb scalar_elem l') eqn:Es.
      + contradiction H. apply Hsc. apply scalar_elem_iff. exact Es.
      + destruct (scalar_elem_false _ Es) as [e [He Hnn]]. exists e. split; [exact He|]. destruct (Hall e He) as [->|]; [|assumption]. contradiction Hnn. exists VNone. reflexivity.
    - intros [_ [_ [e [He [? [? [? ->]]]]]]] H. discriminate (H _ He). }
  rewrite Hno, Hst. split.
  - cbn [readable]. split.
    + intros [[a [b [-> Hs]]]|[H1 H2]].
      * right. assert (Ha : no_limits [EAtom a; EAtom b]) by (apply Hsc; intros e [<-|[<-|[]]]; eexists; reflexivity).
        split; [symmetry; exact Hl'|]. split; [|exact Ha]. pose proof (Ha _ (or_introl eq_refl)) as E. injection E as ->.
        destruct k; [reflexivity|]. contradiction Hs. split; [reflexivity|left; reflexivity].
      * left. split; [apply Hpd; exact H1|exact H2].
    + intros [[H1 H2]|[E [-> H]]].
      * right. split; [apply Hpd; exact H1|exact H2].
      * left. rewrite E in Hl'. destruct l' as [|e1 [|e2 [|]]]; try discriminate Hl'. exists VNone, VNone.
        rewrite (H e1 (or_introl eq_refl)), (H e2 (or_intror (or_introl eq_refl))). split; [reflexivity|]. intros [E' _]. discriminate E'.
  - split.
    + intros [k1 [l1 [E [[H1 H2]|[[e [He Hnn]] H]]]]]; injection E as <- <-.
      * rewrite Hl' in H2. split; [exact H2|apply Hsc; exact H1].
      * destruct H as [H|[_ [k1 [s [Hi Hs]]]]]; [contradiction|]. destruct (Hall _ Hi) as [E|[? [? [? E]]]]; [discriminate E|]. injection E as _ ->. contradiction Hs. reflexivity.
    + intros [H1 H2]. exists k, l'. split; [reflexivity|]. left. split; [apply Hsc; exact H2|]. rewrite Hl'. exact H1.
Qed.

Lemma repeat_true_good n : goods (repeat (EAtom (VBool true)) n) = true.
Proof. induction n; [reflexivity|exact IHn]. Qed.

Lemma construct_boundaries n data w b diag resc d cova neffa refl ppf K : (1 <= n)%nat ->
  snd (kde_new n data w b diag resc d cova neffa refl) = Ok K ->
  let unlimited := n <> 2%nat /\ exists k l, refl = RSeq k l /\ no_limits l in
  (gives_extrema n refl /\ exists e, kde_construct n data w b diag resc d cova neffa refl RNone ppf = Ok (K, e))
  \/ (~ gives_extrema n refl /\ unlimited /\ kde_construct n data w b diag resc d cova neffa refl RNone ppf = Err ValueError)
  \/ (~ gives_extrema n refl /\ ~ unlimited /\ kde_construct n data w b diag resc d cova neffa refl RNone ppf = Err TypeError).
Proof.
  intros Hn HK U. pose proof (construct_outcome n data w b diag resc d cova neffa refl RNone ppf K Hn HK) as HO. cbv zeta in HO.
  cbn [extrema_object] in HO. destruct (new_dims _ _ _ _ _ _ _ _ _ _ _ HK) as [_ [Hd [spec [Hc _]]]].
  assert (Hpos : readable n (reflect_object n data refl) -> gives_extrema n refl ->
    (gives_extrema n refl /\ exists e, kde_construct n data w b diag resc d cova neffa refl RNone ppf = Ok (K, e))).
  { intros H1 H2. split; [exact H2|]. destruct HO as [[_ H]|[[H _]|[H _]]]; [exact H|contradiction|contradiction]. }
  destruct refl as [| | |r|k l].
  - left. apply Hpos; exact I.
  - left. apply Hpos; exact I.
  - left. apply Hpos; [|exact I]. cbn [check_reflect reflect_object] in *. cbv zeta in Hc. cbn [snd] in Hc.
    destruct (snd (check_loop KList data 0 (repeat (EAtom (VBool true)) n))) as [[]|] eqn:E; [|discriminate Hc].
    pose proof (kept_loop _ _ _ _ (repeat_true_good n) E) as HF.
    destruct (kept_readable n KList _ _ HF (repeat_length _ _) Hn) as [HR _]. apply HR. left. split.
    + intros H. destruct n as [|n]; [lia|]. discriminate (H (EAtom (VBool true)) (or_introl eq_refl)).
    + intros e He. apply repeat_spec in He. subst e. intros [[E' _]|[? [? [? [E' _]]]]]; discriminate E'.
  - discriminate Hc.
  - cbn [check_reflect] in Hc. destruct (andb (Nat.eqb (length l) 2) (Nat.eqb n 1)) eqn:Ep.
    + apply Bool.andb_true_iff in Ep. destruct Ep as [E2 E1]. apply Nat.eqb_eq in E1, E2. subst n.
      destruct l as [|[a|] [|[b0|] [|]]]; try discriminate Hc. left. apply Hpos; [|left; split; [reflexivity|exists a, b0; reflexivity]].
      cbv zeta in Hc. cbn [snd] in Hc. cbn [reflect_object]. rewrite E2. cbn [Nat.eqb andb]. cbv zeta.
      set (pr := ESeq KList [fst (coerce_pair a b0); snd (coerce_pair a b0)]) in *.
      destruct (snd (check_loop KList data 0 [pr])) as [[]|] eqn:E; [|discriminate Hc].
      pose proof (kept_loop KList data [pr] 0 eq_refl E) as HF.
      destruct (kept_readable 1 KList _ _ HF eq_refl Hn) as [HR _]. apply HR. left. split.
      * intros H. discriminate (H pr (or_introl eq_refl)).
      * intros e [<-|[]] [[_ E']|[k1 [a1 [b1 [E' [Hk _]]]]]]; [discriminate E'|]. injection E' as <- _ _. discriminate Hk.
    + destruct (Nat.eqb_spec (length l) n) as [Hl|]; [|discriminate Hc]. destruct (goods l) eqn:Hg; [|discriminate Hc]. cbn [negb] in Hc. cbv zeta in Hc. cbn [snd] in Hc.
      destruct (snd (check_loop k data 0 l)) as [[]|] eqn:E; [|discriminate Hc].
      pose proof (kept_loop _ _ _ _ Hg E) as HF. destruct (kept_readable n k _ _ HF Hl Hn) as [HR HBd].
      cbn [reflect_object] in HO. rewrite Ep in HO.
      assert (Hnp : ~ (n = 1%nat /\ flat_pair l)).
      { intros [-> [a [b0 ->]]]. discriminate Ep. }
      assert (HG : gives_extrema n (RSeq k l) <-> readable n (RSeq k (fst (check_loop k data 0 l)))).
      { rewrite HR. cbn [gives_extrema]. tauto. }
      assert (HU : U <-> bad_shape n (RSeq k (fst (check_loop k data 0 l)))).
      { rewrite HBd. unfold U. split; intros [H1 H2]; (split; [exact H1|]); [destruct H2 as [k1 [l1 [E' H2]]]; injection E' as <- <-; exact H2|exists k, l; auto]. }
      rewrite HG, HU. exact HO.
Qed.

Lemma construct_user n data w b diag resc d cova neffa refl user ppf K : (1 <= n)%nat ->
  snd (kde_new n data w b diag resc d cova neffa refl) = Ok K -> user <> RNone ->
  (readable n user /\ exists e, kde_construct n data w b diag resc d cova neffa refl user ppf = Ok (K, e))
  \/ (~ readable n user /\ bad_shape n user /\ kde_construct n data w b diag resc d cova neffa refl user ppf = Err ValueError)
  \/ (~ readable n user /\ ~ bad_shape n user /\ kde_construct n data w b diag resc d cova neffa refl user ppf = Err TypeError).
Proof.
  intros Hn HK Hu. pose proof (construct_outcome n data w b diag resc d cova neffa refl user ppf K Hn HK) as HO. cbv zeta in HO.
  replace (extrema_object user (reflect_object n data refl)) with user in HO; [exact HO|]. destruct user; [contradiction Hu; reflexivity|reflexivity..].
Qed.
Lemma construct_new_err n data w b diag resc d cova neffa refl user ppf e :
  snd (kde_new n data w b diag resc d cova neffa refl) = Err e -> kde_construct n data w b diag resc d cova neffa refl user ppf = Err e.
Proof. unfold kde_construct. intros ->. reflexivity. Qed.

(* ---------------------------------------------------------------- agreement with the extrema of lists *)
Lemma v_opt_num v : v <> VNone -> v_opt v = Some (v_num v).
Proof. destruct v; intros H; [contradiction H|..]; reflexivity. Qed.
Lemma fill_pair_ok k a b d p : fill_pair k a b d = Ok p -> p = fill (v_opt a) (v_opt b) d.
Proof.
  destruct k; cbn [fill_pair]; [intros E; injection E as <-; reflexivity|].
  destruct (is_none a) eqn:Ea; [discriminate|]. destruct (is_none b) eqn:Eb; [discriminate|]. cbn [orb]. intros E. injection E as <-.
  assert (a <> VNone) by (intros ->; discriminate Ea). assert (b <> VNone) by (intros ->; discriminate Eb). rewrite !v_opt_num by assumption. reflexivity.
Qed.
Definition spec_elt (o : option bnd) : exelt := match o with None => XNone | Some b => XPair (fst b) (snd b) end.
Lemma mapM_bridge k : forall l dext r, length l = length dext -> (forall e, In e l -> e = EAtom VNone \/ is_pair e) ->
  mapM (fun de => fill_entry k (snd de) (fst de)) (combine dext l) = Ok r ->
  r = map (fun de => match snd de with XPair lo hi => fill lo hi (fst de) | _ => fst de end) (combine dext (map spec_elt (map entry_spec l))).
Proof.
  induction l as [|e l IH]; intros [|d dext] r Hl Hall; try discriminate Hl.
  - cbn. intros E. injection E as <-. reflexivity.
  - injection Hl as Hl. cbn [combine mapM map fst snd]. destruct (fill_entry k e d) as [p|] eqn:Ef; [|discriminate]. cbn [bind].
    destruct (mapM _ (combine dext l)) as [r'|] eqn:Em; [|discriminate]. cbn [bind]. intros E. injection E as <-.
    rewrite (IH dext r' Hl (fun e' H => Hall e' (or_intror H)) Em). f_equal.
    destruct (Hall e (or_introl eq_refl)) as [->|[k' [a [b ->]]]]; cbn [entry_spec spec_elt fst snd].
    + destruct k; cbn in Ef; [injection Ef as <-; reflexivity|discriminate Ef].
    + cbn [fill_entry] in Ef. apply fill_pair_ok in Ef. exact Ef.
Qed.
Lemma parse_bridge dext k l r : dext <> [] -> (forall e, In e l -> e = EAtom VNone \/ is_pair e) ->
  parse_extrema_py dext (RSeq k l) = Ok r -> parse_extrema dext (Some (refl_extrema (map entry_spec l))) = Ok r.
Proof.
  intros Hd Hall. cbn [parse_extrema_py]. unfold parse_extrema.
  assert (Hsc : forallb x_scalar (refl_extrema (map entry_spec l)) = forallb scalar_elem l).
  { clear -Hall. induction l as [|e l IH]; [reflexivity|]. cbn [map refl_extrema forallb]. fold (refl_extrema (map entry_spec l)).
    rewrite IH by (intros e' H; apply Hall; right; exact H). destruct (Hall e (or_introl eq_refl)) as [->|[k' [a [b ->]]]]; reflexivity. }
  rewrite Hsc. destruct (forallb scalar_elem l) eqn:Es.
  - destruct l as [|e1 [|e2 [|e3 l]]]; [discriminate|destruct e1; discriminate| |destruct e1; [destruct e2|]; discriminate].
    destruct e1 as [a|]; [|discriminate]. destruct e2 as [b|]; [|discriminate]. destruct dext as [|d0 dext]; [discriminate|].
    destruct (fill_pair k a b d0) as [p|] eqn:E; [|discriminate]. cbn [bind]. intros E'. injection E' as <-.
    destruct (Hall _ (or_introl eq_refl)) as [Ea|[? [? [? Ea]]]]; [|discriminate Ea]. injection Ea as ->.
    destruct (Hall _ (or_intror (or_introl eq_refl))) as [Ea|[? [? [? Ea]]]]; [|discriminate Ea]. injection Ea as ->.
    apply fill_pair_ok in E. subst p. reflexivity.
  - assert (Hl' : length (refl_extrema (map entry_spec l)) = length l) by (unfold refl_extrema; rewrite !map_length; reflexivity).
    rewrite Hl'. destruct (Nat.eqb_spec (length l) (length dext)) as [Hl|]; cbn [negb]; [|discriminate].
    assert (Hx : forall f, (f XNone = false) -> (forall lo hi, f (XPair lo hi) = false) -> existsb f (refl_extrema (map entry_spec l)) = false).
    { intros f H1 H2. destruct (existsb f (refl_extrema (map entry_spec l))) eqn:E; [|reflexivity]. apply existsb_exists in E. destruct E as [x [Hx Hf]].
      unfold refl_extrema in Hx. rewrite map_map in Hx. apply in_map_iff in Hx. destruct Hx as [e [<- He]].
      destruct (Hall e He) as [->|[k' [a [b ->]]]]; cbn in Hf; congruence. }
    rewrite !Hx by reflexivity. destruct (existsb _ l); [discriminate|]. destruct (existsb _ l); [discriminate|].
    intros Em. rewrite (mapM_bridge k l dext r Hl Hall Em). reflexivity.
Qed.

(** The object and the checked specification. *)
Lemma object_spec n data refl spec : data <> [] -> snd (check_reflect n data refl) = Ok spec ->
  match reflect_object n data refl with
  | RNone => spec = None
  | RSeq _ l => spec = Some (map entry_spec l) /\ forall e, In e l -> e = EAtom VNone \/ is_pair e
  | _ => False
  end.
Proof.
  intros Hd Hc.
  assert (HK : forall l l', Forall2 kept l l' -> forall e, In e l' -> e = EAtom VNone \/ is_pair e).
  { intros l l' HF e He. destruct (Forall2_In_r _ _ _ _ _ HF e He) as [e0 [_ Hk]]. destruct Hk; [left; reflexivity| |]; right; eexists; eexists; eexists; reflexivity. }
  destruct refl as [| | |r|k l]; cbn [check_reflect reflect_object] in *.
  - injection Hc as <-. reflexivity.
  - injection Hc as <-. reflexivity.
  - cbv zeta in Hc. cbn [snd] in Hc. destruct (snd (check_loop KList data 0 (repeat (EAtom (VBool true)) n))) as [[]|] eqn:E; [|discriminate Hc].
    injection Hc as <-. split; [reflexivity|]. apply (HK _ _ (kept_loop _ _ _ _ (repeat_true_good n) E)).
  - discriminate Hc.
  - destruct (andb (Nat.eqb (length l) 2) (Nat.eqb n 1)) eqn:Ep.
    + destruct l as [|[a|] [|[b0|] [|]]]; try discriminate Hc. cbv zeta in *. cbn [snd] in Hc.
      set (pr := ESeq KList [fst (coerce_pair a b0); snd (coerce_pair a b0)]) in *.
      destruct (snd (check_loop KList data 0 [pr])) as [[]|] eqn:E; [|discriminate Hc]. injection Hc as <-. split; [reflexivity|].
      apply (HK _ _ (kept_loop KList data [pr] 0 eq_refl E)).
    + destruct (Nat.eqb (length l) n); [|discriminate Hc]. destruct (goods l) eqn:Hg; [|discriminate Hc]. cbn [negb] in Hc. cbv zeta in Hc. cbn [snd] in Hc.
      destruct (snd (check_loop k data 0 l)) as [[]|] eqn:E; [|discriminate Hc]. injection Hc as <-. split; [reflexivity|].
      apply (HK _ _ (kept_loop _ _ _ _ Hg E)).
Qed.

Lemma construct_extrema n data w b diag resc d cova neffa refl ppf K e : (1 <= n)%nat ->
  kde_construct n data w b diag resc d cova neffa refl RNone ppf = Ok (K, Some e) -> kde_extrema K ppf None = Some (Ok e).
Proof.
  intros Hn H. unfold kde_construct in H. destruct (snd (kde_new n data w b diag resc d cova neffa refl)) as [K'|] eqn:HK; [|discriminate H]. cbn [bind] in H.
  destruct (new_dims _ _ _ _ _ _ _ _ _ _ _ HK) as [En [Hd [spec [Hc Er]]]]. pose proof (object_spec n data refl spec Hd Hc) as HS.
  cbn [extrema_object] in H. destruct (eff_or K' ppf) as [eff|] eqn:Ee.
  2:{ destruct (parse_extrema_py _ _); [cbn in H; discriminate H|discriminate H]. }
  assert (Hne : eff <> []) by (intros ->; apply eff_or_length in Ee; cbn in Ee; lia).
  destruct (parse_extrema_py eff (reflect_object n data refl)) as [e'|] eqn:Ep; [|discriminate H]. cbn [bind] in H. injection H as <- <-.
  unfold kde_extrema. unfold eff_or in Ee. destruct (kd_kernel K') as [kern|]; [|discriminate Ee]. destruct (ext_out _ _ _) as [out|]; [|discriminate Ee]. injection Ee as Ee. rewrite Ee, Er.
  f_equal. destruct (reflect_object n data refl) as [| | |r|k l]; try contradiction HS.
  - rewrite HS. exact Ep.
  - destruct HS as [-> Hall]. cbn [option_map]. apply (parse_bridge eff k l e' Hne Hall Ep).
Qed.

(** The extrema argument decides. *)
Lemma construct_given n data w b diag resc d cova neffa refl k l ppf K e : (1 <= n)%nat -> per_dimension n l ->
  kde_construct n data w b diag resc d cova neffa refl (RSeq k l) ppf = Ok (K, Some e) ->
  kde_extrema K ppf (Some (refl_extrema (map entry_spec l))) = Some (Ok e)
  /\ length e = n /\ forall i k' lo hi, (i < n)%nat -> nth i l (EAtom VNone) = ESeq k' [lo; hi] ->
       (lo <> VNone -> num_of lo (fst (nth i e (0, 0)))) /\ (hi <> VNone -> num_of hi (snd (nth i e (0, 0)))).
Proof.
  intros Hn Hp H. unfold kde_construct in H. destruct (snd (kde_new n data w b diag resc d cova neffa refl)) as [K'|] eqn:HK; [|discriminate H]. cbn [bind] in H.
  destruct (new_dims _ _ _ _ _ _ _ _ _ _ _ HK) as [En _].
  cbn [extrema_object] in H. destruct (eff_or K' ppf) as [eff|] eqn:Ee.
  2:{ destruct (parse_extrema_py _ _); [cbn in H; discriminate H|discriminate H]. }
  pose proof (eff_or_length _ _ _ Ee) as EL. rewrite En in EL.
  assert (Hne : eff <> []) by (intros ->; cbn in EL; lia).
  destruct (parse_extrema_py eff (RSeq k l)) as [e'|] eqn:Ep; [|discriminate H]. cbn [bind] in H. injection H as <- <-.
  split.
  - unfold kde_extrema. unfold eff_or in Ee. destruct (kd_kernel K') as [kern|]; [|discriminate Ee]. destruct (ext_out _ _ _) as [out|]; [|discriminate Ee]. injection Ee as Ee. rewrite Ee.
    f_equal. apply (parse_bridge eff k l e' Hne (proj1 (proj2 Hp)) Ep).
  - pose proof Hp as Hp'. rewrite <- EL in Hp'. destruct (parse_py_each eff k l e' Hp' Ep) as [Hl Hi]. split; [lia|].
    intros i k' lo hi Hin E. destruct (Hi i ltac:(lia)) as [_ H2]. destruct (H2 k' lo hi E) as [[[Ha _]|Ha] [[Hb _]|Hb]]; split; intros; auto; contradiction.
Qed.

(* ---------------------------------------------------------------- with params *)
Lemma mapM_nth (l : list exelt) : forall ps,
  ((forall p, In p ps -> (p < length l)%nat) ->
     mapM (fun p => match nth_error l p with Some e => Ok e | None => Err IndexError end) ps = Ok (map (fun p => nth p l XNone) ps))
  /\ ((exists p, In p ps /\ (length l <= p)%nat) ->
     mapM (fun p => match nth_error l p with Some e => Ok e | None => Err IndexError end) ps = Err IndexError).
Proof.
  induction ps as [|p ps [IH1 IH2]]; split; cbn [mapM map]; intros H.
  - reflexivity.
  - destruct H as [p [[] _]].
  - rewrite (nth_error_nth' l XNone) by (apply H; left; reflexivity). cbn [bind]. rewrite IH1 by (intros q Hq; apply H; right; exact Hq). reflexivity.
  - destruct (nth_error l p) as [e|] eqn:E; [|reflexivity]. cbn [bind]. rewrite IH2; [reflexivity|].
    destruct H as [q [[<-|Hq] Hl]]; [|exists q; auto]. apply nth_error_None in Hl. congruence.
Qed.
Lemma parse_params_select dext l ps : length l <> length dext ->
  ((forall p, In p ps -> (p < length l)%nat) -> parse_extrema_params dext (Some l) ps = Ok (map (fun p => nth p l XNone) ps))
  /\ ((exists p, In p ps /\ (length l <= p)%nat) -> parse_extrema_params dext (Some l) ps = Err IndexError).
Proof.
  intros Hl. unfold parse_extrema_params. destruct (Nat.eqb_spec (length l) (length dext)) as [|_]; [contradiction|]. apply mapM_nth.
Qed.

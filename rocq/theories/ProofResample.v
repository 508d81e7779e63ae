(** Proofs about sampling. *)
From Coq Require Import FunctionalExtensionality.
From Verif Require Import Base ModelLinAlg SpecLinAlg ProofLinAlg ModelKernels ModelKDE SpecKDE ModelExtrema
  ModelReflect SpecReflect ProofReflectArg ModelInterp ProofInterp ModelResample SpecResample ProofTop2.
Open Scope R_scope.
Notation length := List.length.

(* ------------------------------------------------------------ Cholesky of a positive definite matrix *)
Lemma inv_posdef n M N : symmetric n M -> posdef n M -> is_inverse n M N -> posdef n N.
Proof.
  intros Hs Hp HI x [i0 [Hi0 Hx0]]. set (y := mvec n N x).
  assert (Ex : forall i, (i < n)%nat -> x i = mvec n M y i).
  { intros i Hi. unfold y, mvec. transitivity (rsum n (fun j => rsum n (fun k => M i k * N k j) * x j)).
    - rewrite (rsum_ext n _ (fun j => ident i j * x j)); [symmetry; apply rsum_ident_l; exact Hi|].
      intros j Hj. rewrite (proj1 (HI i j Hi Hj)). reflexivity.
    - transitivity (rsum n (fun j => rsum n (fun k => M i k * (N k j * x j)))).
      + apply rsum_ext; intros j Hj. rewrite <- rsum_scal_r. apply rsum_ext; intros; ring.
      + rewrite rsum_swap. apply rsum_ext; intros k Hk. rewrite rsum_scal. reflexivity. }
  assert (Eq : quad n N x = quad n M y).
  { unfold quad. transitivity (rsum n (fun i => x i * y i)).
    - apply rsum_ext; intros i Hi. unfold y, mvec. rewrite <- rsum_scal. apply rsum_ext; intros; ring.
    - transitivity (rsum n (fun i => y i * mvec n M y i)).
      + apply rsum_ext; intros i Hi. rewrite (Ex i Hi) at 1. ring.
      + apply rsum_ext; intros i Hi. unfold mvec. rewrite <- rsum_scal. apply rsum_ext; intros; ring. }
  rewrite Eq. apply Hp.
  destruct (vec_zero_dec n y) as [[i [Hi Hy]]|Hz]; [eauto|].
  exfalso. apply Hx0. rewrite (Ex i0 Hi0). unfold mvec. apply rsum_zero_ext. intros k Hk. rewrite Hz by exact Hk. ring.
Qed.

Lemma chol_posdef n M : symmetric n M -> posdef n M -> exists U, chol n M = Some U /\ is_factor n M U.
Proof.
  intros Hs Hp. destruct (whiten_posdef n M Hs Hp) as [N [W [HN [_ _]]]].
  pose proof (minv_sound n M N HN) as HI. pose proof (minv_sym n M N HN Hs) as HsN.
  pose proof (inv_posdef n M N Hs Hp HI) as HpN.
  destruct (whiten_posdef n N HsN HpN) as [P [U [HP [HU _]]]].
  pose proof (minv_sound n N P HP) as HI2.
  assert (Ha : agree n P M). { apply (inverse_unique n N); [exact HI2|]. intros i j Hi Hj. split; apply (HI i j Hi Hj). }
  pose proof (chol_ext n P M) as HE. rewrite HU in HE. specialize (HE (fun i j Hij Hj => Ha i j ltac:(lia) Hj)).
  destruct (chol n M) as [V|] eqn:EV; [|contradiction]. exists V. split; [reflexivity|].
  pose proof (chol_sound n M V EV) as [H1 H2 H3]. split; [|split].
  - intros i j Hij. apply H1. lia.
  - exact H2.
  - intros i j Hi Hj. apply chol_full; assumption.
Qed.

Lemma chol_diag_pos n A U i : chol n A = Some U -> (i < n)%nat -> 0 < A i i.
Proof.
  intros H Hi. destruct (chol_sound n A U H) as [H1 H2 H3]. rewrite <- (H3 i i (le_n i) Hi).
  apply Rlt_le_trans with (U i i * U i i); [apply Rmult_lt_0_compat; apply H2; exact Hi|].
  apply (rsum_ge_term n (fun k => U k i * U k i)); [intros; apply Rle_0_sqr|exact Hi].
Qed.

(* ------------------------------------------------------------ resample without reflection *)
Lemma kept_in n k i : kept n k i <-> In i (keep_dims n k).
Proof.
  destruct k as [|[]|j|l]; cbn; try tauto.
  - rewrite in_seq. intuition lia.
  - intuition discriminate.
  - intuition.
Qed.

Lemma existsb_eqb_in i l : existsb (Nat.eqb i) l = true <-> In i l.
Proof.
  rewrite existsb_exists. split.
  - intros [x [H1 H2]]. apply Nat.eqb_eq in H2. subst. exact H1.
  - intros H. exists i. split; [exact H|apply Nat.eqb_refl].
Qed.

Lemma combine_nth' {A B} (l : list A) (m : list B) j a b : length l = length m ->
  nth j (combine l m) (a, b) = (nth j l a, nth j m b).
Proof. intros. apply combine_nth. exact H. Qed.

Lemma nth_map_seq {A} (f : nat -> A) n j d : (j < n)%nat -> nth j (map f (seq 0 n)) d = f j.
Proof.
  intros H. rewrite (nth_indep _ d (f O)) by (rewrite map_length, seq_length; exact H).
  rewrite map_nth. rewrite seq_nth by exact H. reflexivity.
Qed.

Lemma resample_clear_ok d n M U data w keep size rn ix :
  chol n M = Some U -> (forall i, In i (keep_dims n keep) -> (i < n)%nat) -> choice_ok (length data) size w = true ->
  exists ss, resample_clear d n M data w keep size rn ix = Ok ss /\ length ss = size
    /\ forall j, (j < size)%nat -> forall i,
        nth j ss pt0 i = nth (ix j) data pt0 i
          + (if existsb (Nat.eqb i) (keep_dims n keep) then 0 else color n U (dist_sample d n (rn j)) i).
Proof.
  intros HU Hk Hc. unfold resample_clear, add_cov. rewrite HU. cbn [bind].
  assert (E : forallb (fun p => Nat.ltb p n) (keep_dims n keep) = true).
  { apply forallb_forall. intros p Hp. apply Nat.ltb_lt. auto. }
  rewrite E, Hc. cbn [negb]. eexists. split; [reflexivity|]. split.
  - rewrite map_length, combine_length, !map_length, seq_length. lia.
  - intros j Hj i.
    rewrite !map_map.
    set (f := fun x => zero_dims (keep_dims n keep) (color n U (dist_sample d n (rn x)))).
    set (g := fun mz : pt * pt => padd (fst mz) (snd mz)).
    assert (E2 : combine (map (fun x => nth (ix x) data pt0) (seq 0 size)) (map f (seq 0 size))
                 = map (fun x => (nth (ix x) data pt0, f x)) (seq 0 size)).
    { generalize (seq 0 size) as l. induction l as [|a l IH]; cbn; [reflexivity|]. f_equal. exact IH. }
    rewrite E2, map_map. rewrite nth_map_seq by exact Hj. unfold g, f, padd, zero_dims. cbn [fst snd].
    reflexivity.
Qed.

Lemma resample_clear_badkeep d n M U data w keep size rn ix p :
  chol n M = Some U -> In p (keep_dims n keep) -> (n <= p)%nat ->
  resample_clear d n M data w keep size rn ix = Err IndexError.
Proof.
  intros HU Hp Hn. unfold resample_clear, add_cov. rewrite HU. cbn [bind].
  destruct (forallb _ _) eqn:E; [|reflexivity]. rewrite forallb_forall in E. specialize (E p Hp).
  apply Nat.ltb_lt in E. lia.
Qed.

Lemma choice_ok_built n data ws d M refl K size : built_kde n data ws d M refl K ->
  choice_ok (length data) size (kd_weights K) = true.
Proof.
  intros HB. destruct (built_inv _ _ _ _ _ _ _ HB) as (En & Ed & Hne & Er & Ew & Hl & Hnn & Hp & Et & Ek & Hs & Hpd).
  unfold choice_ok. destruct (kd_weights K) as [w|].
  - cbn [wlist] in Ew. subst w. destruct (Reqb_spec (lsum ws) 0); [lra|reflexivity].
  - destruct data; [contradiction|]. reflexivity.
Qed.

Definition clear_arg (K : kde) (arg : rarg) : Prop := arg = RFalse \/ (arg = RNone /\ kd_reflect K = None).

Lemma kde_resample_clear K size keep chunk arg rn ix : clear_arg K arg ->
  kde_resample K size keep chunk arg rn ix =
  (arg, match kd_kernel K with
        | None => Err ValueError
        | Some k => resample_clear (k_dist k) (kd_ndim K) (k_matrix k) (kd_data K) (kd_weights K) keep
            (match size with None => length (kd_data K) | Some s => s end) (rn O) (ix O)
        end).
Proof.
  intros [->|[-> Hr]]; unfold kde_resample.
  - reflexivity.
  - rewrite Hr. reflexivity.
Qed.

Definition size_of (data : list pt) (size : option nat) : nat :=
  match size with None => length data | Some s => s end.

Theorem kept_verbatim n data ws d M refl K size keep chunk arg rn ix :
  built_kde n data ws d M refl K -> clear_arg K arg ->
  (forall i, kept n keep i -> (i < n)%nat) -> valid_choice data ws (size_of data size) (ix O) ->
  exists ss U, snd (kde_resample K size keep chunk arg rn ix) = Ok ss /\ length ss = size_of data size
    /\ is_factor n M U
    /\ forall j, (j < size_of data size)%nat ->
        exists p w, In (p, w) (combine data ws) /\ 0 < w
          /\ forall i, (i < n)%nat ->
              (kept n keep i -> nth j ss pt0 i = p i)
              /\ (~ kept n keep i -> nth j ss pt0 i = p i + rsum n (fun l => U l i * dist_sample d n (rn O j) l)).
Proof.
  intros HB Ha Hk Hc.
  destruct (built_inv _ _ _ _ _ _ _ HB) as (En & Ed & Hne & Er & Ew & Hl & Hnn & Hp & Et & Ek & Hs & Hpd).
  destruct (chol_posdef n M Hs Hpd) as [U [HU HF]].
  rewrite (kde_resample_clear _ _ _ _ _ _ _ Ha), Ek, Ed, En. cbn [snd k_dist k_matrix].
  fold (size_of data size).
  destruct (resample_clear_ok d n M U data (kd_weights K) keep (size_of data size) (rn O) (ix O) HU) as [ss [E1 [E2 E3]]].
  { intros i Hi. apply Hk, kept_in, Hi. }
  { eapply choice_ok_built, HB. }
  exists ss, U. split; [exact E1|]. split; [exact E2|]. split; [exact HF|].
  intros j Hj. destruct (Hc j Hj) as [Hc1 Hc2].
  exists (nth (ix O j) data pt0), (nth (ix O j) ws 0). split; [|split].
  - rewrite <- combine_nth by (symmetry; exact Hl). apply nth_In. rewrite combine_length. lia.
  - assert (0 <= nth (ix O j) ws 0) by (apply Hnn, nth_In; lia). lra.
  - intros i Hi. rewrite (E3 j Hj i). split; intros Hki.
    + apply kept_in, existsb_eqb_in in Hki. rewrite Hki. ring.
    + destruct (existsb (Nat.eqb i) (keep_dims n keep)) eqn:E; [|reflexivity].
      exfalso. apply Hki, kept_in, existsb_eqb_in, E.
Qed.

Lemma keep_out_of_range n data ws d M refl K size keep chunk arg rn ix p :
  built_kde n data ws d M refl K -> clear_arg K arg -> kept n keep p -> (n <= p)%nat ->
  snd (kde_resample K size keep chunk arg rn ix) = Err IndexError.
Proof.
  intros HB Ha Hk Hn.
  destruct (built_inv _ _ _ _ _ _ _ HB) as (En & Ed & Hne & Er & Ew & Hl & Hnn & Hp & Et & Ek & Hs & Hpd).
  destruct (chol_posdef n M Hs Hpd) as [U [HU HF]].
  rewrite (kde_resample_clear _ _ _ _ _ _ _ Ha), Ek, Ed, En. cbn [snd k_dist k_matrix].
  eapply resample_clear_badkeep; [exact HU|apply kept_in, Hk|exact Hn].
Qed.

(* ------------------------------------------------------------ keep with reflect *)
Lemma zero_rows_ok ps n (refl : reflspec) M : forall M1, zero_rows ps n refl M = Ok M1 ->
  (forall p, In p ps -> (p < n)%nat /\ nth p refl None = None)
  /\ forall i j, M1 i j = if orb (existsb (Nat.eqb i) ps) (existsb (Nat.eqb j) ps) then 0 else M i j.
Proof.
  revert M. induction ps as [|p ps IH]; intros M M1 H; cbn [zero_rows] in H.
  - injection H as <-. split; [intros p []|]. intros i j. reflexivity.
  - destruct (Nat.ltb_spec p n) as [Hp|Hp]; cbn [negb] in H; [|discriminate H].
    destruct (nth p refl None) eqn:En; [discriminate H|]. destruct (IH _ _ H) as [H1 H2]. split.
    + intros q [<-|Hq]; [auto|apply H1, Hq].
    + intros i j. rewrite H2. cbn [existsb].
      destruct (Nat.eqb i p), (Nat.eqb j p), (existsb (Nat.eqb i) ps), (existsb (Nat.eqb j) ps); reflexivity.
Qed.
Lemma zero_rows_total ps n (refl : reflspec) M :
  (forall p, In p ps -> (p < n)%nat /\ nth p refl None = None) -> exists M1, zero_rows ps n refl M = Ok M1.
Proof.
  revert M. induction ps as [|p ps IH]; intros M H; cbn [zero_rows]; [eauto|].
  destruct (H p (or_introl eq_refl)) as [Hp En]. destruct (Nat.ltb_spec p n); [|lia]. cbn [negb]. rewrite En.
  apply IH. intros q Hq. apply H. right; exact Hq.
Qed.
Lemma zero_rows_conflict ps n (refl : reflspec) M :
  (forall p, In p ps -> (p < n)%nat) -> (exists p, In p ps /\ nth p refl None <> None) -> zero_rows ps n refl M = Err ValueError.
Proof.
  revert M. induction ps as [|p ps IH]; intros M H [q [Hq Hn]]; [destruct Hq|]. cbn [zero_rows].
  destruct (Nat.ltb_spec p n); [|specialize (H p (or_introl eq_refl)); lia]. cbn [negb].
  destruct (nth p refl None) eqn:En; [reflexivity|]. apply IH; [intros; apply H; right; assumption|].
  exists q. destruct Hq as [<-|Hq]; [rewrite En in Hn; contradiction|]. auto.
Qed.

Lemma chol_zero n ps n0 (refl : reflspec) M M1 : zero_rows ps n0 refl M = Ok M1 -> (exists p, In p ps /\ (p < n)%nat) -> chol n M1 = None.
Proof.
  intros H [p [Hp Hn]]. destruct (chol n M1) as [U|] eqn:E; [|reflexivity].
  pose proof (chol_diag_pos n M1 U p E Hn) as Hd. destruct (zero_rows_ok _ _ _ _ _ H) as [_ H2].
  rewrite H2 in Hd. assert (Ep : existsb (Nat.eqb p) ps = true) by (apply existsb_eqb_in, Hp). rewrite Ep in Hd. cbn in Hd. lra.
Qed.

(* ------------------------------------------------------------ strictly inside *)
Lemma inside_from_spec (refl : reflspec) x : forall ii, inside_from ii refl x = true <->
  forall i b, nth_error refl i = Some (Some b) ->
    (forall lo, fst b = Some lo -> lo < x (ii + i)%nat) /\ (forall hi, snd b = Some hi -> x (ii + i)%nat < hi).
Proof.
  induction refl as [|ob rest IH]; intros ii; cbn [inside_from].
  - split; [|reflexivity]. intros _ i b H. destruct i; discriminate H.
  - rewrite andb_true_iff, IH. split.
    + intros [H0 H1] [|i] b Hb.
      * cbn in Hb. injection Hb as ->. rewrite Nat.add_0_r. unfold in_bnd in H0. apply andb_true_iff in H0. destruct H0 as [Ha Hc].
        split; [intros lo E; rewrite E in Ha; apply Rltb_true, Ha|intros hi E; rewrite E in Hc; apply Rltb_true, Hc].
      * rewrite Nat.add_succ_r. apply (H1 i b Hb).
    + intros H. split.
      * destruct ob as [b|]; [|reflexivity]. destruct (H O b eq_refl) as [Ha Hc]. rewrite Nat.add_0_r in *. unfold in_bnd.
        apply andb_true_iff. split; [destruct (fst b); [apply Rltb_true, Ha; reflexivity|reflexivity]|
          destruct (snd b); [apply Rltb_true, Hc; reflexivity|reflexivity]].
      * intros i b Hb. specialize (H (S i) b Hb). rewrite Nat.add_succ_r in H. exact H.
Qed.
Lemma inside_spec (refl : reflspec) x : inside refl x = true <-> strictly_inside refl x.
Proof. unfold inside. rewrite inside_from_spec. reflexivity. Qed.

(* ------------------------------------------------------------ the rejection loop *)
Section Loop.
Context (trial : nat -> nat -> res (list pt)) (refl : reflspec) (n size chunk chunk_size : nat).
Notation loop := (reject_loop trial refl n size chunk chunk_size).

Lemma loop_inside fuel : forall cnt draw acc cnt' acc',
  (length acc <= size)%nat -> (forall x, In x acc -> inside refl x = true) ->
  loop fuel cnt draw acc = Ok (cnt', acc') ->
  (length acc' <= size)%nat /\ (forall x, In x acc' -> inside refl x = true)
  /\ (cnt' <= cnt + fuel)%nat /\ ((length acc' < size)%nat -> cnt' = (cnt + fuel)%nat).
Proof.
  induction fuel as [|f IH]; intros cnt draw acc cnt' acc' Hl Hi H; cbn [reject_loop] in H.
  - injection H as <- <-. repeat split; auto; lia.
  - destruct (Nat.ltb_spec (length acc) size) as [Hlt|Hge].
    + destruct (trial cnt draw) as [tr|e]; cbn [bind] in H; [|discriminate H].
      apply IH in H.
      * destruct H as (A & B & C & D). split; [exact A|]. split; [exact B|]. split; [lia|]. intros H'. specialize (D H'). lia.
      * rewrite app_length, firstn_length. lia.
      * intros x Hx. apply in_app_or in Hx. destruct Hx as [Hx|Hx]; [auto|].
        assert (In x (filter (inside refl) tr)).
        { rewrite <- (firstn_skipn (size - length acc) (filter (inside refl) tr)). apply in_or_app. left; exact Hx. }
        apply filter_In in H0. tauto.
    + injection H as <- <-. repeat split; auto; lia.
Qed.

Lemma loop_total fuel : (forall t k, exists tr, trial t k = Ok tr) -> forall cnt draw acc, exists r, loop fuel cnt draw acc = Ok r.
Proof.
  intros Ht. induction fuel as [|f IH]; intros cnt draw acc; cbn [reject_loop]; [eauto|].
  destruct (Nat.ltb (length acc) size); [|eauto]. destruct (Ht cnt draw) as [tr ->]. cbn [bind]. apply IH.
Qed.

Lemma loop_err fuel e : (forall t k, trial t k = Err e) -> (0 < size)%nat -> forall cnt draw, (0 < fuel)%nat -> loop fuel cnt draw [] = Err e.
Proof.
  intros Ht Hs cnt draw Hf. destruct fuel as [|f]; [lia|]. cbn [reject_loop length].
  destruct (Nat.ltb_spec 0 size); [|lia]. rewrite Ht. reflexivity.
Qed.

(** The result is the accepted candidates in order, cut at [size]. *)
Lemma loop_candidates fuel : forall cnt draw acc cnt' acc', (length acc <= size)%nat ->
  (1 <= chunk)%nat -> ((length acc < size)%nat -> (1 <= draw <= chunk)%nat /\ (1 <= chunk_size)%nat) ->
  loop fuel cnt draw acc = Ok (cnt', acc') ->
  exists trs, length trs = (cnt' - cnt)%nat /\ (cnt <= cnt')%nat
    /\ (forall t, (t < length trs)%nat -> exists k, (1 <= k <= chunk)%nat /\ trial (cnt + t)%nat k = Ok (nth t trs []))
    /\ acc' = firstn size (acc ++ flat_map (filter (inside refl)) trs).
Proof.
  induction fuel as [|f IH]; intros cnt draw acc cnt' acc' Hl Hch Hdr H; cbn [reject_loop] in H.
  - injection H as <- <-. exists []. cbn. rewrite app_nil_r, firstn_all2 by exact Hl. repeat split; try lia. 
  - destruct (Nat.ltb_spec (length acc) size) as [Hlt|Hge].
    + destruct (trial cnt draw) as [tr|e] eqn:Et; cbn [bind] in H; [|discriminate H].
      set (good := filter (inside refl) tr) in *.
      destruct (Hdr Hlt) as [Hd Hcs].
      apply IH in H; [|rewrite app_length, firstn_length; lia|exact Hch|].
      2:{ intros Hlt2. split; [|exact Hcs]. assert (1 <= 2 ^ n)%nat by (apply Nat.neq_0_lt_0, Nat.pow_nonzero; lia).
          set (q := Nat.min _ chunk_size). assert (1 <= q)%nat by (unfold q; lia).
          assert (1 <= 2 ^ n * q)%nat by nia. lia. }
      destruct H as [trs (A & B & C & D)]. exists (tr :: trs). cbn [length flat_map]. split; [lia|]. split; [lia|]. split.
      * intros [|t] Ht; [rewrite Nat.add_0_r; cbn; exists draw; split; assumption|]. cbn [nth]. rewrite Nat.add_succ_r. apply (C t). lia.
      * rewrite D. fold good. rewrite app_assoc.
        destruct (le_lt_dec (length good) (size - length acc)) as [Hle|Hgt].
        -- rewrite (firstn_all2 good) by lia. reflexivity.
        -- rewrite !firstn_app. rewrite !app_length, firstn_length.
           replace (size - (length acc + Nat.min (size - length acc) (length good)))%nat with O by lia.
           replace (size - (length acc + length good))%nat with O by lia. cbn [firstn]. rewrite !app_nil_r.
           rewrite (firstn_all2 acc) by lia. f_equal. rewrite firstn_firstn. f_equal. lia.
    + injection H as <- <-. exists []. cbn. rewrite app_nil_r, firstn_all2 by exact Hl. repeat split; try lia.
Qed.
End Loop.

Lemma chunk_size_range size chunk : (0 < chunk)%nat -> (0 < size)%nat -> (1 <= snd (chunking size chunk) <= chunk)%nat.
Proof.
  intros Hc Hs. unfold chunking. destruct (Nat.ltb_spec chunk size); cbn [snd]; [|lia].
  unfold ceil_div. set (q := ((size + chunk - 1) / chunk)%nat).
  assert (H1 : (chunk * q <= size + chunk - 1)%nat) by (apply Nat.mul_div_le; lia).
  assert (H2 : (size + chunk - 1 < chunk * S q)%nat) by (apply Nat.mul_succ_div_gt; lia).
  assert (Hq : (1 <= q)%nat) by nia.
  set (c := ((size + q - 1) / q)%nat).
  assert (H3 : (q * c <= size + q - 1)%nat) by (apply Nat.mul_div_le; lia).
  assert (H4 : (size + q - 1 < q * S c)%nat) by (apply Nat.mul_succ_div_gt; lia).
  split; [nia|]. destruct (le_lt_dec c chunk); [assumption|]. exfalso.
  assert (size <= chunk * q)%nat by nia. assert (q * (chunk + 1) <= q * c)%nat by nia. nia.
Qed.

(* ------------------------------------------------------------ mirrored data *)
Lemma in_mirrors ii (ob : option bnd) data x : In x (mirrors_of ii ob data) <->
  exists b loc p, ob = Some b /\ (fst b = Some loc \/ snd b = Some loc) /\ In p data /\ x = mirror_pt ii loc p.
Proof.
  unfold mirrors_of. destruct ob as [b|].
  - rewrite in_app_iff. split.
    + intros [H|H].
      * destruct (fst b) as [lo|] eqn:E; [|destruct H]. apply in_map_iff in H. destruct H as [p [<- Hp]].
        exists b, lo, p. auto.
      * destruct (snd b) as [hi|] eqn:E; [|destruct H]. apply in_map_iff in H. destruct H as [p [<- Hp]].
        exists b, hi, p. auto.
    + intros [b' [loc [p [E [Hl [Hp ->]]]]]]. injection E as <-. destruct Hl as [Hl|Hl]; rewrite Hl; [left|right]; apply in_map, Hp.
  - split; [intros []|]. intros [b [loc [p [E _]]]]. discriminate E.
Qed.
Lemma in_all_mirrors (refl : reflspec) data x : forall ii, In x (all_mirrors ii refl data) <->
  exists i b loc p, nth_error refl i = Some (Some b) /\ (fst b = Some loc \/ snd b = Some loc)
    /\ In p data /\ x = mirror_pt (ii + i) loc p.
Proof.
  induction refl as [|ob rest IH]; intros ii; cbn [all_mirrors].
  - split; [intros []|]. intros [i [b [loc [p [E _]]]]]. destruct i; discriminate E.
  - rewrite in_app_iff, in_mirrors, IH. split.
    + intros [[b [loc [p [E H]]]]|[i [b [loc [p [E H]]]]]].
      * exists O, b, loc, p. rewrite Nat.add_0_r. subst. cbn. tauto.
      * exists (S i), b, loc, p. rewrite Nat.add_succ_r. tauto.
    + intros [[|i] [b [loc [p [E H]]]]].
      * left. cbn in E. injection E as ->. exists b, loc, p. rewrite Nat.add_0_r in H. tauto.
      * right. exists i, b, loc, p. rewrite Nat.add_succ_r in H. tauto.
Qed.

(** A mirror image of a point strictly inside is never strictly inside. *)
Lemma mirror_outside (refl : reflspec) i b loc p : nth_error refl i = Some (Some b) -> ordered (Some b) ->
  (fst b = Some loc \/ snd b = Some loc) -> inside refl p = true -> inside refl (mirror_pt i loc p) = false.
Proof.
  intros E Ho Hl Hp. apply inside_spec in Hp. destruct (inside refl (mirror_pt i loc p)) eqn:E2; [|reflexivity].
  apply inside_spec in E2. exfalso. destruct (Hp i b E) as [H1 H2]. destruct (E2 i b E) as [H3 H4].
  unfold mirror_pt in *. rewrite Nat.eqb_refl in *.
  destruct Hl as [Hl|Hl]; [specialize (H1 _ Hl); specialize (H3 _ Hl)|specialize (H2 _ Hl); specialize (H4 _ Hl)]; lra.
Qed.

Lemma filter_all {A} (f : A -> bool) l : (forall x, In x l -> f x = true) -> filter f l = l.
Proof. induction l as [|a l IH]; intros H; cbn; [reflexivity|]. rewrite (H a) by (left; reflexivity). f_equal. apply IH. intros; apply H; right; assumption. Qed.
Lemma filter_none {A} (f : A -> bool) l : (forall x, In x l -> f x = false) -> filter f l = [].
Proof. induction l as [|a l IH]; intros H; cbn; [reflexivity|]. rewrite (H a) by (left; reflexivity). apply IH. intros; apply H; right; assumption. Qed.

Lemma mirrors_dropped (refl : reflspec) data : (forall p, In p data -> inside refl p = true) ->
  filter (inside refl) (all_mirrors 0 refl data) = [].
Proof.
  intros H. apply filter_none. intros x Hx. apply in_all_mirrors in Hx. destruct Hx as [i [b [loc [p [E [Hl [Hp ->]]]]]]].
  cbn [Nat.add]. destruct (inside refl (mirror_pt i loc p)) eqn:E2; [|reflexivity]. exfalso.
  pose proof (H p Hp) as Hi. apply inside_spec in Hi, E2. destruct (Hi i b E) as [H1 H2]. destruct (E2 i b E) as [H3 H4].
  unfold mirror_pt in *. rewrite Nat.eqb_refl in *.
  destruct Hl as [Hl|Hl]; [specialize (H1 _ Hl); specialize (H3 _ Hl)|specialize (H2 _ Hl); specialize (H4 _ Hl)]; lra.
Qed.

Lemma combine_app_eq {A B} (l1 l2 : list A) (m1 m2 : list B) : length l1 = length m1 ->
  combine (l1 ++ l2) (m1 ++ m2) = combine l1 m1 ++ combine l2 m2.
Proof. revert m1. induction l1 as [|a l1 IH]; intros [|b m1] H; cbn in *; try discriminate; [reflexivity|]. f_equal. apply IH. lia. Qed.

Lemma lsum_div l c : lsum (map (fun x => x / c) l) = lsum l / c.
Proof. induction l as [|a l IH]; cbn; [unfold Rdiv; ring|]. rewrite IH. unfold Rdiv; ring. Qed.

Lemma normalise_scale c w : c <> 0 -> normalise (map (fun x => x / c) w) = normalise w.
Proof.
  intros Hc. unfold normalise. rewrite map_map. apply map_ext. intros x. rewrite lsum_div.
  destruct (Req_EM_T (lsum w) 0) as [E|E].
  - rewrite E. unfold Rdiv. rewrite Rmult_0_l, Rinv_0. ring.
  - field. auto.
Qed.

Lemma filter_map_snd (g : pt -> bool) (h : R -> R) (data : list pt) : forall w : list R,
  map snd (filter (fun xw : pt * R => g (fst xw)) (combine data (map h w))) =
  map h (map snd (filter (fun xw : pt * R => g (fst xw)) (combine data w))).
Proof.
  induction data as [|a data IH]; intros [|b w]; cbn; try reflexivity.
  destruct (g a); cbn; [f_equal|]; apply IH.
Qed.

Lemma length_repeat_list {A} k (l : list A) : length (repeat_list k l) = (k * length l)%nat.
Proof. induction k as [|k IH]; cbn; [reflexivity|]. rewrite app_length, IH. reflexivity. Qed.
Lemma length_mirrors_of ii ob data : length (mirrors_of ii ob data) = (n_mirrors ob * length data)%nat.
Proof.
  unfold mirrors_of, n_mirrors. destruct ob as [b|]; [|reflexivity]. rewrite app_length.
  destruct (fst b), (snd b); rewrite ?map_length; cbn; lia.
Qed.
Lemma length_all_mirrors (refl : reflspec) data : forall ii, length (all_mirrors ii refl data) = (copies refl * length data)%nat.
Proof.
  induction refl as [|ob rest IH]; intros ii; cbn [all_mirrors copies fold_right]; [reflexivity|].
  rewrite app_length, length_mirrors_of, IH. unfold copies. lia.
Qed.
Lemma lsum_repeat_list k l : lsum (repeat_list k l) = INR k * lsum l.
Proof. induction k as [|k IH]; [cbn; ring|]. cbn [repeat_list]. rewrite lsum_app, IH, S_INR. ring. Qed.

(** All data strictly inside: the population after mirroring and truncation is the data itself,
    with the original weight shares. *)
Theorem mirrors_discarded (refl : reflspec) data w : (forall p, In p data -> inside refl p = true) ->
  (forall w', w = Some w' -> length w' = length data /\ 0 < lsum w') ->
  truncate (fst (reflect_data data w refl)) (snd (reflect_data data w refl)) refl = (data, option_map normalise w).
Proof.
  intros Hi Hw. unfold truncate, reflect_data. cbn [fst snd]. f_equal.
  - rewrite filter_app, (filter_all _ data) by exact Hi. rewrite mirrors_dropped by exact Hi. apply app_nil_r.
  - destruct w as [w|]; [|reflexivity]. cbn [option_map]. f_equal. destruct (Hw w eq_refl) as [Hl Hp].
    unfold normalise at 2. set (T := lsum (w ++ repeat_list (copies refl) w)).
    rewrite (filter_map_snd (inside refl) (fun x => x / T)).
    rewrite normalise_scale.
    + rewrite combine_app_eq by (symmetry; exact Hl). rewrite filter_app, map_app.
      rewrite (filter_all _ (combine data w)).
      * rewrite (filter_none _ (combine (all_mirrors 0 refl data) (repeat_list (copies refl) w))).
        -- cbn [map]. rewrite app_nil_r. f_equal. clear -Hl. revert w Hl.
           induction data as [|a data IH]; intros [|b w] Hl; cbn in *; try discriminate; [reflexivity|]. f_equal. apply IH. lia.
        -- intros [x v] Hx. apply in_combine_l in Hx. cbn [fst].
           destruct (inside refl x) eqn:E; [|reflexivity].
           assert (In x (filter (inside refl) (all_mirrors 0 refl data))) by (apply filter_In; auto).
           rewrite mirrors_dropped in H by exact Hi. destruct H.
      * intros [x v] Hx. apply in_combine_l in Hx. cbn [fst]. apply Hi, Hx.
    + unfold T. rewrite lsum_app, lsum_repeat_list. pose proof (pos_INR (copies refl)). nra.
Qed.

(** In general the population consists of the images of data points lying strictly inside. *)
Lemma population (refl : reflspec) data w x :
  In x (fst (truncate (fst (reflect_data data w refl)) (snd (reflect_data data w refl)) refl))
  <-> strictly_inside refl x /\ exists p, In p data /\ image_of refl p x.
Proof.
  unfold truncate, reflect_data. cbn [fst snd]. rewrite filter_In, inside_spec, in_app_iff, in_all_mirrors. split.
  - intros [[H|[i [b [loc [p [E [Hl [Hp ->]]]]]]]] Hs]; (split; [exact Hs|]).
    + exists x. split; [exact H|left; reflexivity].
    + exists p. split; [exact Hp|]. right. exists i, b, loc. split; [exact E|]. split; [exact Hl|]. intros k. reflexivity.
  - intros [Hs [p [Hp [->|[i [b [loc [E [Hl Hx]]]]]]]]]; (split; [|exact Hs]); [left; exact Hp|].
    right. exists i, b, loc, p. repeat split; auto. apply functional_extensionality. exact Hx.
Qed.

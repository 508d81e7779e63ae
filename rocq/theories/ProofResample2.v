(** Reflected resampling: keep together with reflect, count and bounds, candidates. *)
From Coquelicot Require Import Coquelicot.
From Coq Require Import FunctionalExtensionality.
From Verif Require Import Base ModelLinAlg SpecLinAlg ProofLinAlg ModelKernels ProofKernels ModelKDE SpecKDE ModelExtrema
  ModelReflect SpecReflect ProofReflectArg ModelInterp ProofInterp ModelResample SpecResample ProofTop2 ProofResample.
Open Scope R_scope.
Notation length := List.length.

(** The bounds [refl] apply to a resample call with reflect argument [arg]. *)
Definition bounds_used (K : kde) (arg : rarg) (refl : reflspec) : Prop :=
  (arg = RNone /\ kd_reflect K = Some refl /\ length refl = kd_ndim K /\ forall ob, In ob refl -> ordered ob)
  \/ snd (check_reflect (kd_ndim K) (kd_data K) arg) = Ok (Some refl).

Lemma kde_resample_refl n data ws d M st K size keep chunk arg (refl : reflspec) rn ix : built_kde n data ws d M st K -> bounds_used K arg refl ->
  snd (kde_resample K size keep chunk arg rn ix) =
  (do r <- resample_reflect d n M data (kd_weights K) refl keep chunk (size_of data size) rn ix ;; Ok (snd r)).
Proof.
  intros HB Hb. destruct (built_inv _ _ _ _ _ _ _ HB) as (En & Ed & Hne & Er & Ew & Hl & Hnn & Hp & Et & Ek & Hs & Hpd).
  destruct Hb as [[-> [Hr [Hlen Ho]]]|Hc].
  - unfold kde_resample. rewrite Hr. unfold kernel_resample. cbn [fst snd]. rewrite Ek, Ed, En in *.
    rewrite (recheck n data refl Hne Hlen Ho). cbn [snd bind k_dist k_matrix]. reflexivity.
  - assert (E : kde_resample K size keep chunk arg rn ix =
      kernel_resample (kd_kernel K) (kd_ndim K) (kd_data K) (kd_weights K) size keep chunk arg rn ix).
    { destruct arg; try reflexivity; cbn in Hc; discriminate Hc. }
    rewrite E. unfold kernel_resample. cbn [snd]. rewrite Hc. cbn [bind]. rewrite Ek, Ed, En. reflexivity.
Qed.

(** Some image of a data point of positive weight lies strictly inside the bounds. *)
Definition has_inside (refl : reflspec) (data : list pt) (ws : list R) : Prop :=
  exists p w x, In (p, w) (combine data ws) /\ 0 < w /\ image_of refl p x /\ strictly_inside refl x.

Lemma image_ext (refl : reflspec) p x : image_of refl p x -> x = p \/ exists i b loc, nth_error refl i = Some (Some b) /\ (fst b = Some loc \/ snd b = Some loc) /\ x = mirror_pt i loc p.
Proof.
  intros [->|[i [b [loc [H1 [H2 H3]]]]]]; [left; reflexivity|right]. exists i, b, loc. split; [exact H1|]. split; [exact H2|].
  apply functional_extensionality. exact H3.
Qed.

(* the weights of mirrored data *)
Lemma combine_mirrors_in (refl : reflspec) : forall ii data (w : list R) p v i b loc, length w = length data ->
  In (p, v) (combine data w) -> nth_error refl i = Some (Some b) -> (fst b = Some loc \/ snd b = Some loc) ->
  In (mirror_pt (ii + i) loc p, v) (combine (all_mirrors ii refl data) (repeat_list (copies refl) w)).
Proof.
  assert (HM : forall f : pt -> pt, forall data (w : list R) p v, In (p, v) (combine data w) -> In (f p, v) (combine (map f data) w)).
  { intros f data. induction data as [|a data IH]; intros [|b w] p v H; cbn in *; try contradiction.
    destruct H as [H|H]; [left; injection H as -> ->; reflexivity|right; apply IH, H]. }
  induction refl as [|ob rest IH]; intros ii data w p v i b loc Hl Hin E Hloc; [destruct i; discriminate E|].
  cbn [all_mirrors copies fold_right]. fold (copies rest).
  assert (ER : repeat_list (n_mirrors ob + copies rest) w = repeat_list (n_mirrors ob) w ++ repeat_list (copies rest) w).
  { generalize (n_mirrors ob) as k. induction k as [|k IHk]; cbn [repeat_list Nat.add]; [reflexivity|]. rewrite IHk, app_assoc. reflexivity. }
  rewrite ER, combine_app_eq by (rewrite length_mirrors_of, length_repeat_list; congruence).
  apply in_or_app. destruct i as [|i].
  - left. cbn in E. injection E as ->. rewrite Nat.add_0_r. unfold mirrors_of, n_mirrors.
    destruct b as [lo hi]; cbn [fst snd] in *. destruct Hloc as [->| ->].
    + destruct hi as [hi|]; cbn [Nat.add repeat_list app].
      * rewrite combine_app_eq by (rewrite map_length; congruence). apply in_or_app. left. apply HM, Hin.
      * rewrite !app_nil_r. apply HM, Hin.
    + destruct lo as [lo|]; cbn [Nat.add repeat_list app].
      * rewrite combine_app_eq by (rewrite map_length; congruence). apply in_or_app. right. rewrite app_nil_r. apply HM, Hin.
      * rewrite !app_nil_r. apply HM, Hin.
  - right. rewrite Nat.add_succ_r. apply (IH (S ii) data w p v i b loc); assumption.
Qed.

Lemma lsum_pos l v : (forall x, In x l -> 0 <= x) -> In v l -> 0 < v -> 0 < lsum l.
Proof.
  intros H Hin Hv. induction l as [|a l IH]; [destruct Hin|]. cbn.
  assert (0 <= a) by (apply H; left; reflexivity). assert (0 <= lsum l) by (apply lsum_nonneg; intros; apply H; right; assumption).
  destruct Hin as [->|Hin]; [lra|]. assert (0 < lsum l); [|lra]. apply IH; [intros; apply H; right; assumption|exact Hin].
Qed.
Lemma in_repeat_list {A} k (l : list A) x : In x (repeat_list k l) -> In x l.
Proof. induction k as [|k IH]; cbn; [intros []|]. rewrite in_app_iff. tauto. Qed.

Lemma lsum_normalise w : lsum w <> 0 -> lsum (normalise w) = 1.
Proof. intros H. unfold normalise. rewrite lsum_div. field. exact H. Qed.
Lemma lsum_normalise_0 w : lsum w = 0 -> lsum (normalise w) = 0.
Proof. intros H. unfold normalise. rewrite lsum_div, H. unfold Rdiv. ring. Qed.

Lemma truncate_weights (refl : reflspec) data w : length w = length data -> (forall v, In v w -> 0 <= v) -> 0 < lsum w ->
  let T := map snd (filter (fun xw : pt * R => inside refl (fst xw)) (combine (data ++ all_mirrors 0 refl data) (w ++ repeat_list (copies refl) w))) in
  snd (truncate (fst (reflect_data data (Some w) refl)) (snd (reflect_data data (Some w) refl)) refl) = Some (normalise T)
  /\ (forall v, In v T -> 0 <= v) /\ (has_inside refl data w <-> 0 < lsum T).
Proof.
  intros Hl Hnn Hp. cbv zeta.
  set (T := map snd _). split; [|split].
  - unfold reflect_data, truncate. cbn [fst snd]. f_equal. unfold normalise at 2. set (c := lsum (w ++ _)).
    rewrite (filter_map_snd (inside refl) (fun x => x / c)). rewrite normalise_scale; [reflexivity|].
    unfold c. rewrite lsum_app, lsum_repeat_list. pose proof (pos_INR (copies refl)). nra.
  - intros v Hv. unfold T in Hv. apply in_map_iff in Hv. destruct Hv as [[x v'] [<- Hx]]. apply filter_In in Hx. destruct Hx as [Hx _].
    apply in_combine_r in Hx. cbn. apply in_app_or in Hx. destruct Hx as [Hx|Hx]; [auto|]. apply Hnn, in_repeat_list with (1 := Hx).
  - assert (HT : forall v, In v T -> 0 <= v).
    { intros v Hv. unfold T in Hv. apply in_map_iff in Hv. destruct Hv as [[x v'] [<- Hx]]. apply filter_In in Hx. destruct Hx as [Hx _].
      apply in_combine_r in Hx. cbn. apply in_app_or in Hx. destruct Hx as [Hx|Hx]; [auto|]. apply Hnn, in_repeat_list with (1 := Hx). }
    split.
    + intros [p [v [x [Hin [Hv [Him Hs]]]]]]. apply (lsum_pos T v HT); [|exact Hv].
      unfold T. apply in_map_iff. exists (x, v). split; [reflexivity|]. apply filter_In. cbn [fst]. split; [|apply inside_spec, Hs].
      rewrite combine_app_eq by congruence. apply in_or_app. apply image_ext in Him. destruct Him as [->|[i [b [loc [E [Hloc ->]]]]]].
      * left; exact Hin.
      * right. apply (combine_mirrors_in refl O data w p v i b loc Hl Hin E Hloc).
    + intros HTp. destruct (lsum_pos_ex T HT HTp) as [v [Hv Hv0]]. unfold T in Hv. apply in_map_iff in Hv. destruct Hv as [[x v'] [E Hx]]. cbn in E; subst v'.
      apply filter_In in Hx. destruct Hx as [Hx Hi]. cbn in Hi. apply inside_spec in Hi.
      rewrite combine_app_eq in Hx by congruence. apply in_app_or in Hx. destruct Hx as [Hx|Hx].
      * exists x, v, x. split; [exact Hx|]. split; [exact Hv0|]. split; [left; reflexivity|exact Hi].
      * (* a mirror image *)
        assert (Hm : forall (refl' : reflspec) ii, In (x, v) (combine (all_mirrors ii refl' data) (repeat_list (copies refl') w)) ->
                exists p i b loc, In (p, v) (combine data w) /\ nth_error refl' i = Some (Some b) /\ (fst b = Some loc \/ snd b = Some loc) /\ x = mirror_pt (ii + i) loc p).
        { assert (HM : forall f : pt -> pt, forall (w' : list R) l, In (x, v) (combine (map f l) w') -> exists p, In (p, v) (combine l w') /\ x = f p).
          { intros f w' l. revert w'. induction l as [|a l IH]; intros [|b w'] H; cbn in *; try contradiction.
            destruct H as [H|H]; [injection H as <- <-; exists a; auto|]. destruct (IH _ H) as [p [H1 H2]]. exists p; auto. }
          induction refl' as [|ob rest IH]; intros ii H; [destruct H|]. cbn [all_mirrors copies fold_right] in H. fold (copies rest) in H.
          assert (ER : repeat_list (n_mirrors ob + copies rest) w = repeat_list (n_mirrors ob) w ++ repeat_list (copies rest) w).
          { generalize (n_mirrors ob) as k. induction k as [|k IHk]; cbn [repeat_list Nat.add]; [reflexivity|]. rewrite IHk, app_assoc. reflexivity. }
          rewrite ER, combine_app_eq in H by (rewrite length_mirrors_of, length_repeat_list; congruence).
          apply in_app_or in H. destruct H as [H|H].
          - destruct ob as [[lo hi]|]; [|destruct H]. unfold mirrors_of, n_mirrors in H. cbn [fst snd] in H.
            destruct lo as [lo|]; destruct hi as [hi|]; cbn [Nat.add repeat_list app] in H; rewrite ?app_nil_r in H.
            + rewrite combine_app_eq in H by (rewrite map_length; congruence). apply in_app_or in H. destruct H as [H|H]; apply HM in H; destruct H as [p [H1 H2]].
              * exists p, O, (Some lo, Some hi), lo. rewrite Nat.add_0_r. cbn; auto.
              * exists p, O, (Some lo, Some hi), hi. rewrite Nat.add_0_r. cbn; auto.
            + apply HM in H; destruct H as [p [H1 H2]]. exists p, O, (Some lo, None), lo. rewrite Nat.add_0_r. cbn; auto.
            + apply HM in H; destruct H as [p [H1 H2]]. exists p, O, (None, Some hi), hi. rewrite Nat.add_0_r. cbn; auto.
            + destruct H.
          - destruct (IH _ H) as [p [i [b [loc (A & B & C & D)]]]]. exists p, (S i), b, loc. rewrite Nat.add_succ_r. auto. }
        destruct (Hm refl O Hx) as [p [i [b [loc (A & B & C & D)]]]]. exists p, v, x. split; [exact A|]. split; [exact Hv0|]. split; [|exact Hi].
        right. exists i, b, loc. split; [exact B|]. split; [exact C|]. intros k. rewrite D. reflexivity.
Qed.

Lemma zero_rows_nil n (refl : reflspec) M keep : (forall i, ~ kept n keep i) -> cov_keep_vars n M keep refl = Ok M.
Proof.
  intros H. unfold cov_keep_vars. assert (E : keep_dims n keep = []).
  { destruct (keep_dims n keep) as [|a l] eqn:E; [reflexivity|]. exfalso. apply (H a). apply kept_in. rewrite E. left; reflexivity. }
  rewrite E. reflexivity.
Qed.

(** Population from which candidates are drawn. *)
Definition pop (refl : reflspec) (data : list pt) (ow : option (list R)) :=
  truncate (fst (reflect_data data ow refl)) (snd (reflect_data data ow refl)) refl.

Lemma combine_ones_in (data : list pt) p w : In (p, w) (combine data (map (fun _ => 1) data)) <-> In p data /\ w = 1.
Proof.
  induction data as [|a data IH]; cbn; [tauto|]. rewrite IH. split.
  - intros [H|[H1 H2]]; [injection H as -> ->; auto|auto].
  - intros [[->|H] ->]; auto.
Qed.

Lemma pop_choice n data ws d M st K (refl : reflspec) k : built_kde n data ws d M st K ->
  (has_inside refl data ws <-> fst (pop refl data (kd_weights K)) <> [] /\ choice_ok (length (fst (pop refl data (kd_weights K)))) k (snd (pop refl data (kd_weights K))) = true).
Proof.
  intros HB. destruct (built_inv _ _ _ _ _ _ _ HB) as (En & Ed & Hne & Er & Ew & Hl & Hnn & Hp & Et & Ek & Hs & Hpd).
  unfold pop. destruct (kd_weights K) as [w|] eqn:EK.
  - cbn [wlist] in Ew. subst w. destruct (truncate_weights refl data ws Hl Hnn Hp) as [E1 [E2 E3]].
    rewrite E1. set (T := map snd _) in *. cbn [choice_ok]. rewrite E3. split.
    + intros HT. split.
      * intros Hnil. destruct (lsum_pos_ex T E2 HT) as [v [Hv _]]. unfold T in Hv. apply in_map_iff in Hv. destruct Hv as [[x v'] [_ Hx]].
        apply filter_In in Hx. destruct Hx as [Hx Hi]. apply in_combine_l in Hx. cbn in Hi.
        assert (In x (fst (truncate (fst (reflect_data data (Some ws) refl)) (snd (reflect_data data (Some ws) refl)) refl))).
        { unfold truncate, reflect_data; cbn [fst snd]. apply filter_In; auto. }
        rewrite Hnil in H. destruct H.
      * destruct (Reqb_spec (lsum (normalise T)) 0) as [E|E]; [|reflexivity]. rewrite lsum_normalise in E by lra. lra.
    + intros [_ H]. destruct (Reqb_spec (lsum (normalise T)) 0) as [E|E]; [discriminate H|].
      assert (0 <= lsum T) by (apply lsum_nonneg, E2). destruct (Req_EM_T (lsum T) 0) as [E0|E0]; [|lra].
      exfalso. apply E. apply lsum_normalise_0, E0.
  - cbn [wlist] in Ew. split.
    + intros [p [v [x [Hin [Hv [Him Hsi]]]]]]. rewrite <- Ew in Hin. apply combine_ones_in in Hin. destruct Hin as [Hin _].
      assert (HX : In x (fst (truncate (fst (reflect_data data None refl)) (snd (reflect_data data None refl)) refl))).
      { apply population. split; [exact Hsi|]. eauto. }
      split; [intros E; rewrite E in HX; destruct HX|].
      unfold truncate at 2; cbn [snd reflect_data choice_ok]. 
      destruct (fst (truncate _ _ _)); [destruct HX|]. reflexivity.
    + intros [H _]. destruct (fst (truncate (fst (reflect_data data None refl)) (snd (reflect_data data None refl)) refl)) as [|x l] eqn:E; [contradiction|].
      assert (HX : In x (x :: l)) by (left; reflexivity). rewrite <- E in HX. apply population in HX. destruct HX as [Hsi [p [Hp' Him]]].
      exists p, 1, x. rewrite <- Ew. split; [apply combine_ones_in; auto|]. split; [lra|]. auto.
Qed.

(** C19 *)
Theorem keep_and_reflect n data ws d M st K size keep chunk arg (refl : reflspec) rn ix :
  built_kde n data ws d M st K -> bounds_used K arg refl -> (0 < size_of data size)%nat -> (0 < chunk)%nat ->
  (exists i, kept n keep i) -> (forall i, kept n keep i -> (i < n)%nat) ->
  snd (kde_resample K size keep chunk arg rn ix) = Err LinAlgError \/ snd (kde_resample K size keep chunk arg rn ix) = Err ValueError.
Proof.
  intros HB Hb Hsz Hch [i0 Hi0] Hk. rewrite (kde_resample_refl _ _ _ _ _ _ _ _ _ _ _ refl _ _ HB Hb).
  unfold resample_reflect, cov_keep_vars.
  destruct (zero_rows (keep_dims n keep) n refl M) as [M1|e] eqn:E; cbn [bind].
  - destruct (Nat.eqb _ 0); [right; reflexivity|]. destruct (Nat.eqb_spec chunk 0); [lia|]. cbn [andb].
    assert (EC : chol n M1 = None).
    { eapply chol_zero; [exact E|]. exists i0. split; [apply kept_in, Hi0|apply Hk, Hi0]. }
    rewrite (loop_err _ _ _ _ _ _ _ LinAlgError); [left; reflexivity| |exact Hsz|].
    + intros t k. unfold resample_clear, add_cov. rewrite EC. reflexivity.
    + unfold max_iter, chunking. destruct (Nat.ltb_spec chunk (size_of data size)); cbn [fst]; [|lia].
      assert (0 < ceil_div (size_of data size) chunk)%nat; [|lia]. unfold ceil_div. apply Nat.div_str_pos. lia.
  - destruct (Classical_Prop.classic (exists p, In p (keep_dims n keep) /\ nth p refl None <> None)) as [HC|HC].
    + rewrite (zero_rows_conflict _ n refl M) in E; [|intros p Hp; apply Hk, kept_in, Hp|exact HC]. injection E as <-. right; reflexivity.
    + destruct (zero_rows_total (keep_dims n keep) n refl M) as [M1 HM1]; [|rewrite HM1 in E; discriminate E].
      intros p Hp. split; [apply Hk, kept_in, Hp|]. destruct (nth p refl None) eqn:EN; [|reflexivity].
      exfalso. apply HC. exists p. rewrite EN. split; [exact Hp|discriminate].
Qed.

Theorem keep_disjoint_fails n data ws d M st K size keep chunk arg (refl : reflspec) rn ix :
  built_kde n data ws d M st K -> bounds_used K arg refl -> (0 < size_of data size)%nat -> (0 < chunk)%nat ->
  (exists i, kept n keep i) -> (forall i, kept n keep i -> (i < n)%nat /\ nth i refl None = None) ->
  has_inside refl data ws -> snd (kde_resample K size keep chunk arg rn ix) = Err LinAlgError.
Proof.
  intros HB Hb Hsz Hch [i0 Hi0] Hk Hin. rewrite (kde_resample_refl _ _ _ _ _ _ _ _ _ _ _ refl _ _ HB Hb).
  unfold resample_reflect, cov_keep_vars.
  destruct (zero_rows_total (keep_dims n keep) n refl M) as [M1 HM1]; [intros p Hp; apply Hk, kept_in, Hp|].
  rewrite HM1. cbn [bind]. apply (pop_choice _ _ _ _ _ _ _ refl O HB) in Hin. destruct Hin as [Hpop _]. unfold pop in Hpop.
  destruct (Nat.eqb_spec (length (fst (truncate (fst (reflect_data data (kd_weights K) refl)) (snd (reflect_data data (kd_weights K) refl)) refl))) 0) as [E0|E0].
  - exfalso. apply Hpop. apply length_zero_iff_nil, E0.
  - destruct (Nat.eqb_spec chunk 0); [lia|]. cbn [andb].
    assert (EC : chol n M1 = None).
    { eapply chol_zero; [exact HM1|]. exists i0. split; [apply kept_in, Hi0|apply Hk, Hi0]. }
    rewrite (loop_err _ _ _ _ _ _ _ LinAlgError); [reflexivity| |exact Hsz|].
    + intros t k. unfold resample_clear, add_cov. rewrite EC. reflexivity.
    + unfold max_iter, chunking. destruct (Nat.ltb_spec chunk (size_of data size)); cbn [fst]; [|lia].
      assert (0 < ceil_div (size_of data size) chunk)%nat; [|lia]. unfold ceil_div. apply Nat.div_str_pos. lia.
Qed.

Theorem keep_reflected_valueerror n data ws d M st K size keep chunk arg (refl : reflspec) rn ix :
  built_kde n data ws d M st K -> bounds_used K arg refl ->
  (forall i, kept n keep i -> (i < n)%nat) -> (exists i b, kept n keep i /\ nth i refl None = Some b) ->
  snd (kde_resample K size keep chunk arg rn ix) = Err ValueError.
Proof.
  intros HB Hb Hk [i [b [Hi Hn]]]. rewrite (kde_resample_refl _ _ _ _ _ _ _ _ _ _ _ refl _ _ HB Hb).
  unfold resample_reflect, cov_keep_vars. rewrite zero_rows_conflict; [reflexivity| |].
  - intros p Hp. apply Hk, kept_in, Hp.
  - exists i. split; [apply kept_in, Hi|rewrite Hn; discriminate].
Qed.

Lemma loop_inside0 trial refl n size chunk cs fuel cnt draw cnt' acc' :
  reject_loop trial refl n size chunk cs fuel cnt draw [] = Ok (cnt', acc') ->
  (length acc' <= size)%nat /\ (forall x, In x acc' -> inside refl x = true)
  /\ (cnt' <= cnt + fuel)%nat /\ ((length acc' < size)%nat -> cnt' = (cnt + fuel)%nat).
Proof. apply loop_inside; [cbn; lia|intros x []]. Qed.

(** C20 *)
Definition num_chunks (size chunk : nat) : nat := fst (chunking size chunk).
Lemma num_chunks_spec size chunk : (0 < chunk)%nat ->
  (1 <= num_chunks size chunk)%nat /\ (size <= num_chunks size chunk * chunk)%nat
  /\ (num_chunks size chunk = 1%nat \/ ((num_chunks size chunk - 1) * chunk < size)%nat).
Proof.
  intros Hc. unfold num_chunks, chunking. destruct (Nat.ltb_spec chunk size); cbn [fst]; [|repeat split; lia].
  unfold ceil_div. set (q := ((size + chunk - 1) / chunk)%nat).
  assert (H1 : (chunk * q <= size + chunk - 1)%nat) by (apply Nat.mul_div_le; lia).
  assert (H2 : (size + chunk - 1 < chunk * S q)%nat) by (apply Nat.mul_succ_div_gt; lia).
  assert (1 <= q)%nat by nia. repeat split; [assumption|nia|right; nia].
Qed.

Theorem reflected_resample n data ws d M st K size keep chunk arg (refl : reflspec) rn ix :
  built_kde n data ws d M st K -> bounds_used K arg refl -> (0 < chunk)%nat -> (forall i, ~ kept n keep i) ->
  has_inside refl data ws ->
  exists trials, (length trials <= 10 * num_chunks (size_of data size) chunk)%nat
    /\ (forall t, (t < length trials)%nat -> exists k, (1 <= k <= chunk)%nat /\
          resample_clear d n M (fst (pop refl data (kd_weights K))) (snd (pop refl data (kd_weights K))) KeepNone k (rn t) (ix t)
          = Ok (nth t trials []))
    /\ let accepted := flat_map (filter (inside refl)) trials in
       ((size_of data size <= length accepted)%nat
        /\ snd (kde_resample K size keep chunk arg rn ix) = Ok (firstn (size_of data size) accepted)
        \/ (length accepted < size_of data size)%nat /\ length trials = (10 * num_chunks (size_of data size) chunk)%nat
        /\ snd (kde_resample K size keep chunk arg rn ix) = Err RuntimeError).
Proof.
  intros HB Hb Hch Hk Hin. rewrite (kde_resample_refl _ _ _ _ _ _ _ _ _ _ _ refl _ _ HB Hb).
  destruct (built_inv _ _ _ _ _ _ _ HB) as (En & Ed & Hne & Er & Ew & Hl & Hnn & Hp & Et & Ek & Hs & Hpd).
  unfold resample_reflect. rewrite zero_rows_nil by exact Hk. cbn [bind].
  fold (pop refl data (kd_weights K)).
  pose proof (fun k => proj1 (pop_choice _ _ _ _ _ _ _ refl k HB) Hin) as Hpop.
  destruct (Nat.eqb_spec (length (fst (pop refl data (kd_weights K)))) 0) as [E0|E0].
  { exfalso. apply (proj1 (Hpop O)). apply length_zero_iff_nil, E0. }
  destruct (Nat.eqb_spec chunk 0); [lia|]. cbn [andb].
  set (trial := fun t k => resample_clear d n M (fst (pop refl data (kd_weights K))) (snd (pop refl data (kd_weights K))) KeepNone k (rn t) (ix t)).
  set (sz := size_of data size). fold (num_chunks sz chunk). set (cs := snd (chunking sz chunk)).
  destruct (chol_posdef n M Hs Hpd) as [U [HU HF]].
  destruct (loop_total trial refl n sz chunk cs (max_iter * num_chunks sz chunk)) with (cnt := O) (draw := cs) (acc := @nil pt) as [[cnt ss] HL].
  { intros t k. destruct (resample_clear_ok d n M U (fst (pop refl data (kd_weights K))) (snd (pop refl data (kd_weights K))) KeepNone k (rn t) (ix t) HU) as [tr [E _]].
    - intros i [].
    - apply Hpop.
    - exists tr. exact E. }
  rewrite HL. cbn [bind snd].
  destruct (loop_inside0 _ _ _ _ _ _ _ _ _ _ _ HL) as (A & B & C & D).
  destruct (loop_candidates trial refl n sz chunk cs _ O cs [] cnt ss (Nat.le_0_l sz) Hch ltac:(intros Hsz; pose proof (chunk_size_range sz chunk Hch Hsz); unfold cs; lia) HL) as [trs (E & F & G & H)].
  cbn [app] in H. cbn [Nat.add] in C, D, G. rewrite Nat.sub_0_r in E.
  exists trs. split; [rewrite E; exact C|]. split; [exact G|].
  assert (Hlen : length ss = Nat.min sz (length (flat_map (filter (inside refl)) trs))) by (rewrite H; apply firstn_length).
  destruct (Nat.ltb_spec (length ss) sz) as [Hlt|Hge].
  - right. split; [lia|]. split; [rewrite E; apply D, Hlt|reflexivity].
  - left. split; [lia|]. cbn [bind snd]. rewrite <- H. reflexivity.
Qed.

Theorem reflected_resample_bounds n data ws d M st K size keep chunk arg (refl : reflspec) rn ix ss :
  built_kde n data ws d M st K -> bounds_used K arg refl ->
  snd (kde_resample K size keep chunk arg rn ix) = Ok ss ->
  length ss = size_of data size /\ forall x, In x ss -> strictly_inside refl x.
Proof.
  intros HB Hb. rewrite (kde_resample_refl _ _ _ _ _ _ _ _ _ _ _ refl _ _ HB Hb). unfold resample_reflect.
  destruct (cov_keep_vars n M keep refl) as [M1|e]; cbn [bind]; [|discriminate].
  destruct (Nat.eqb _ 0); [discriminate|]. destruct (andb _ _); [discriminate|].
  set (trial := fun t k => resample_clear d n M1 _ _ KeepNone k (rn t) (ix t)).
  destruct (reject_loop _ _ _ _ _ _ _ _ _ _) as [[cnt acc]|e] eqn:E; cbn [bind]; [|discriminate]. cbn [snd].
  destruct (Nat.ltb_spec (length acc) (size_of data size)); [discriminate|]. cbn [bind snd]. intros H1. injection H1 as <-.
  destruct (loop_inside0 _ _ _ _ _ _ _ _ _ _ _ E) as (A & B & C & D).
  split; [lia|]. intros x Hx. apply inside_spec, B, Hx.
Qed.

Theorem reflected_resample_empty n data ws d M st K size keep chunk arg (refl : reflspec) rn ix :
  built_kde n data ws d M st K -> bounds_used K arg refl -> (0 < chunk)%nat -> (0 < size_of data size)%nat -> (forall i, ~ kept n keep i) ->
  ~ has_inside refl data ws -> snd (kde_resample K size keep chunk arg rn ix) = Err ValueError.
Proof.
  intros HB Hb Hch Hsz Hk Hno. rewrite (kde_resample_refl _ _ _ _ _ _ _ _ _ _ _ refl _ _ HB Hb).
  destruct (built_inv _ _ _ _ _ _ _ HB) as (En & Ed & Hne & Er & Ew & Hl & Hnn & Hp & Et & Ek & Hs & Hpd).
  unfold resample_reflect. rewrite zero_rows_nil by exact Hk. cbn [bind]. fold (pop refl data (kd_weights K)).
  destruct (Nat.eqb_spec (length (fst (pop refl data (kd_weights K)))) 0) as [E0|E0]; [reflexivity|].
  destruct (Nat.eqb_spec chunk 0); [lia|]. cbn [andb].
  destruct (chol_posdef n M Hs Hpd) as [U [HU HF]].
  rewrite (loop_err _ _ _ _ _ _ _ ValueError); [reflexivity| |exact Hsz|].
  - intros t k. unfold resample_clear, add_cov. rewrite HU. cbn [bind keep_dims forallb negb].
    destruct (choice_ok _ _ _) eqn:EC; [|reflexivity]. exfalso. apply Hno.
    apply (pop_choice _ _ _ _ _ _ _ refl k HB). split; [|exact EC]. intros E. apply E0. rewrite E. reflexivity.
  - unfold max_iter, chunking. destruct (Nat.ltb_spec chunk (size_of data size)); cbn [fst]; [|lia].
    assert (0 < ceil_div (size_of data size) chunk)%nat; [|lia]. unfold ceil_div. apply Nat.div_str_pos. lia.
Qed.

(** C21: with all data strictly inside, the candidates are exactly those of the un-reflected
    resampling with the same random numbers. *)
Lemma resample_clear_weights d n M data w keep size rn ix : (forall w', w = Some w' -> 0 < lsum w') ->
  resample_clear d n M data (option_map normalise w) keep size rn ix = resample_clear d n M data w keep size rn ix.
Proof.
  intros Hw. unfold resample_clear. destruct (add_cov _ _ _); [|reflexivity]. cbn [bind]. destruct (negb _); [reflexivity|].
  assert (E : choice_ok (length data) size (option_map normalise w) = choice_ok (length data) size w).
  { destruct w as [w|]; [|reflexivity]. cbn [option_map choice_ok]. specialize (Hw w eq_refl). rewrite lsum_normalise by lra.
    destruct (Reqb_spec 1 0); [lra|]. destruct (Reqb_spec (lsum w) 0); [lra|reflexivity]. }
  rewrite E. reflexivity.
Qed.

Theorem candidates_unreflected n data ws d M st K size keep chunk arg (refl : reflspec) rn ix :
  built_kde n data ws d M st K -> bounds_used K arg refl -> (0 < chunk)%nat -> (forall i, ~ kept n keep i) ->
  (forall p, In p data -> strictly_inside refl p) ->
  exists trials, (length trials <= 10 * num_chunks (size_of data size) chunk)%nat
    /\ (forall t, (t < length trials)%nat -> exists k, (1 <= k <= chunk)%nat /\
          snd (kde_resample K (Some k) KeepNone chunk RFalse (fun _ => rn t) (fun _ => ix t)) = Ok (nth t trials []))
    /\ let accepted := flat_map (filter (inside refl)) trials in
       ((size_of data size <= length accepted)%nat
        /\ snd (kde_resample K size keep chunk arg rn ix) = Ok (firstn (size_of data size) accepted)
        \/ (length accepted < size_of data size)%nat /\ length trials = (10 * num_chunks (size_of data size) chunk)%nat
        /\ snd (kde_resample K size keep chunk arg rn ix) = Err RuntimeError).
Proof.
  intros HB Hb Hch Hk Hin.
  destruct (built_inv _ _ _ _ _ _ _ HB) as (En & Ed & Hne & Er & Ew & Hl & Hnn & Hp & Et & Ek & Hs & Hpd).
  assert (Hhas : has_inside refl data ws).
  { destruct (lsum_pos_ex ws Hnn Hp) as [v [Hv Hv0]]. destruct (In_nth ws v 0 Hv) as [i [Hi Ei]].
    exists (nth i data pt0), v, (nth i data pt0). split; [|split; [exact Hv0|split; [left; reflexivity|]]].
    - rewrite <- Ei. rewrite <- combine_nth by congruence. apply nth_In. rewrite combine_length. lia.
    - apply Hin, nth_In. lia. }
  destruct (reflected_resample _ _ _ _ _ _ _ size keep chunk arg refl rn ix HB Hb Hch Hk Hhas) as [trials (A & B & C)].
  exists trials. split; [exact A|]. split; [|exact C]. intros t Ht. destruct (B t Ht) as [k [Hk1 Hkk]]. exists k. split; [exact Hk1|].
  rewrite kde_resample_clear by (left; reflexivity). cbn [snd]. rewrite Ek, Ed, En. cbn [k_dist k_matrix].
  assert (EP : pop refl data (kd_weights K) = (data, option_map normalise (kd_weights K))).
  { unfold pop. apply mirrors_discarded.
    - intros p Hp'. apply inside_spec, Hin, Hp'.
    - intros w' E. rewrite E in Ew. cbn in Ew. subst w'. auto. }
  rewrite EP in Hkk. cbn [fst snd] in Hkk. rewrite resample_clear_weights in Hkk; [exact Hkk|].
  intros w' E. rewrite E in Ew. cbn in Ew. subst w'. exact Hp.
Qed.

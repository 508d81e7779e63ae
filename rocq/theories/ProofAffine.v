(** Change of units, translation (C06) and scaling of weights (C04). *)
From Coq Require Import Permutation FunctionalExtensionality.
From Verif Require Import Base ModelLinAlg SpecLinAlg ProofLinAlg
  ModelKernels SpecKernels ProofKernels ModelKDE SpecKDE ProofDensity.
Open Scope R_scope.

Definition mscale (c : nat -> R) (M : mat) : mat := fun i j => c i * c j * M i j.

Lemma schur_scale c m M : (forall i, 0 < c i) -> schur m (mscale c M) = mscale c (schur m M).
Proof.
  intros Hc. extensionality i. extensionality j. unfold schur, mscale.
  pose proof (Hc m). destruct (Req_EM_T (M m m) 0) as [E|E].
  - rewrite E, Rmult_0_r. unfold Rdiv. rewrite !Rinv_0. ring.
  - field. split; [exact E|lra].
Qed.

Lemma mdet_scale c n M : (forall i, 0 < c i) ->
  mdet n (mscale c M) = rprod n c * rprod n c * mdet n M.
Proof.
  intros Hc. revert M. induction n as [|n IH]; intros M; cbn [mdet rprod]; [ring|].
  rewrite schur_scale, IH by assumption. unfold mscale at 1. ring.
Qed.

Lemma minv_scale c n M : (forall i, 0 < c i) ->
  minv n (mscale c M) = option_map (mscale (fun i => / c i)) (minv n M).
Proof.
  intros Hc. revert M. induction n as [|n IH]; intros M; cbn [minv option_map].
  - f_equal. extensionality i. extensionality j. unfold mscale. ring.
  - rewrite schur_scale, IH by assumption.
    assert (Hcn := Hc n).
    destruct (Req_EM_T (mscale c M n n) 0) as [E|E], (Req_EM_T (M n n) 0) as [E'|E'];
      try reflexivity.
    + exfalso. apply E'. unfold mscale in E. assert (0 < c n * c n) by nra. nra.
    + exfalso. apply E. unfold mscale. rewrite E'. ring.
    + destruct (minv n (schur n M)) as [N|]; [|reflexivity]. cbn [option_map]. f_equal.
      extensionality i. extensionality j.
      change (mscale (fun i => / c i) (border_inv n M N) i j) with (/ c i * / c j * border_inv n M N i j).
      unfold border_inv.
      assert (Hci := Hc i). assert (Hcj := Hc j).
      destruct (Nat.ltb i n), (Nat.ltb j n).
      * reflexivity.
      * destruct (Nat.eqb_spec j n) as [->|]; [|ring].
        rewrite (rsum_ext n _ (fun k => (c n / c i) * (N i k * M k n))).
        -- rewrite rsum_scal. unfold mscale. field. repeat split; lra.
        -- intros k Hk. pose proof (Hc k). unfold mscale. field. split; lra.
      * destruct (Nat.eqb_spec i n) as [->|]; [|ring].
        rewrite (rsum_ext n _ (fun k => (c n / c j) * (M n k * N k j))).
        -- rewrite rsum_scal. unfold mscale. field. repeat split; lra.
        -- intros k Hk. pose proof (Hc k). unfold mscale. field. split; lra.
      * destruct (Nat.eqb_spec i n) as [->|]; [|ring].
        destruct (Nat.eqb_spec j n) as [->|]; [|ring].
        rewrite (rsum_ext n _ (fun a => (c n * c n) * (M n a * rsum n (fun b => N a b * M b n)))).
        -- rewrite rsum_scal. unfold mscale. field. repeat split; lra.
        -- intros k Hk. pose proof (Hc k).
           rewrite (rsum_ext n _ (fun b => (c n / c k) * (N k b * M b n))).
           ++ rewrite rsum_scal. unfold mscale. field. lra.
           ++ intros b Hb. pose proof (Hc b). unfold mscale. field. split; lra.
Qed.

Definition colscale (e : nat -> R) (U : mat) : mat := fun i j => U i j * e j.

Lemma fsub_scale e n U b : (forall i, 0 < e i) -> (forall i, (i < n)%nat -> U i i <> 0) -> forall t,
  fsub n (colscale e U) (fun i => e i * t * b i) = fun k => t * fsub n U b k.
Proof.
  intros He. induction n as [|n IH]; intros HU t; cbn [fsub]; extensionality k; [ring|].
  rewrite IH by (intros; apply HU; lia).
  destruct (Nat.eqb k n); [|reflexivity].
  rewrite (rsum_ext n _ (fun l => e n * t * (U l n * fsub n U b l))).
  - rewrite rsum_scal. unfold colscale. field. pose proof (He n). pose proof (HU n (Nat.lt_succ_diag_r n)).
    split; [assumption|lra].
  - intros l Hl. unfold colscale. ring.
Qed.

Lemma chol_scale e n A : (forall i, 0 < e i) ->
  chol n (mscale e A) = option_map (colscale e) (chol n A).
Proof.
  intros He. induction n as [|n IH]; cbn [chol option_map].
  - f_equal. extensionality i. extensionality j. unfold colscale. ring.
  - rewrite IH. destruct (chol n A) as [U|] eqn:EU; [|reflexivity]. cbn [option_map].
    destruct (chol_sound n A U EU) as [_ Hpos _].
    assert (Ef : fsub n (colscale e U) (fun i => mscale e A i n)
                 = fun k => e n * fsub n U (fun i => A i n) k).
    { apply (fsub_scale e n U (fun i => A i n) He) with (t := e n).
      intros i Hi. pose proof (Hpos i Hi). lra. }
    rewrite Ef. set (u := fsub n U (fun i => A i n)).
    rewrite (rsum_ext n (fun k => e n * u k * (e n * u k)) (fun k => (e n * e n) * (u k * u k)))
      by (intros; ring).
    rewrite rsum_scal.
    assert (Ed : mscale e A n n - e n * e n * rsum n (fun k => u k * u k)
                 = (e n * e n) * (A n n - rsum n (fun k => u k * u k))) by (unfold mscale; ring).
    rewrite Ed. set (d2 := A n n - rsum n (fun k => u k * u k)).
    assert (Hen := He n). assert (Hee : 0 < e n * e n) by nra.
    destruct (Rlt_dec 0 (e n * e n * d2)) as [H1|H1], (Rlt_dec 0 d2) as [H2|H2].
    + cbn [option_map]. f_equal. extensionality i. extensionality j. unfold chol_col, colscale.
      destruct (Nat.eqb_spec j n) as [->|]; [|reflexivity].
      destruct (Nat.ltb i n); [ring|]. destruct (Nat.eqb i n); [|ring].
      rewrite sqrt_mult by lra. rewrite sqrt_square by lra. ring.
    + exfalso. apply H2. nra.
    + exfalso. apply H1. nra.
    + reflexivity.
Qed.

(** The change of units with shift: coordinate i goes to s_i + c_i x_i. *)
Lemma aff_refl_length s c ii r : length (aff_refl s c ii r) = length r.
Proof. revert ii; induction r; intros; simpl; auto. Qed.

Lemma white_dist2_aff n W s c x d : (forall i, 0 < c i) ->
  white_dist2 n (colscale (fun i => / c i) W) (aff s c x) (aff s c d) = white_dist2 n W x d.
Proof.
  intros Hc. unfold white_dist2. apply rsum_ext; intros k Hk.
  assert (E : rsum n (fun l => colscale (fun i => / c i) W k l * aff s c x l)
            - rsum n (fun l => colscale (fun i => / c i) W k l * aff s c d l)
            = rsum n (fun l => W k l * x l) - rsum n (fun l => W k l * d l)).
  { rewrite <- !rsum_minus. apply rsum_ext; intros l Hl. unfold colscale, aff.
    pose proof (Hc l). field. lra. }
  cbv zeta. rewrite E. reflexivity.
Qed.

Definition aff_wd (s c : nat -> R) (wd : list (pt * R)) := map (fun dw => (aff s c (fst dw), snd dw)) wd.

Lemma eval_numba_aff n W s c k wd x : (forall i, 0 < c i) ->
  eval_numba n (colscale (fun i => / c i) W) k (aff_wd s c wd) (aff s c x) = eval_numba n W k wd x.
Proof.
  intros Hc. unfold eval_numba, aff_wd. rewrite sumf_map. apply sumf_ext. intros dw _.
  cbn [fst snd]. rewrite white_dist2_aff by assumption. reflexivity.
Qed.

Lemma mirror_aff s c ii loc wd :
  mirror ii (s ii + c ii * loc) (aff_wd s c wd) = aff_wd s c (mirror ii loc wd).
Proof.
  unfold mirror, aff_wd. rewrite !map_map. apply map_ext. intros dw. cbn [fst snd]. f_equal.
  extensionality k. unfold mirror_pt, aff. destruct (Nat.eqb_spec k ii) as [->|]; [ring|reflexivity].
Qed.

Lemma Rltb_aff s c x y : 0 < c -> Rltb (s + c * x) (s + c * y) = Rltb x y.
Proof.
  intros Hc. destruct (Rltb_spec (s + c * x) (s + c * y)), (Rltb_spec x y); try reflexivity; exfalso; nra.
Qed.

Lemma reflect_loop_aff s c ev ev' wd x refl : (forall i, 0 < c i) ->
  (forall l, ev' (aff_wd s c l) = ev l) -> forall ii acc,
  reflect_loop ev' (aff_wd s c wd) (aff s c x) ii (aff_refl s c ii refl) acc
  = reflect_loop ev wd x ii refl acc.
Proof.
  intros Hc Hev. induction refl as [|[b|] refl IH]; intros ii acc; cbn [reflect_loop aff_refl option_map];
    [reflexivity| |apply IH].
  assert (Eo : outside (aff_bnd (s ii) (c ii) b) (aff s c x ii) = outside b (x ii)).
  { destruct b as [[lo|] [hi|]]; unfold outside, aff_bnd, aff; cbn [fst snd option_map];
      rewrite ?Rltb_aff by apply Hc; reflexivity. }
  rewrite Eo.
  assert (Et : forall o, opt_term (fun loc => ev' (mirror ii loc (aff_wd s c wd))) (option_map (fun v => s ii + c ii * v) o)
                       = opt_term (fun loc => ev (mirror ii loc wd)) o).
  { intros [loc|]; cbn [opt_term option_map]; [|reflexivity]. rewrite mirror_aff. apply Hev. }
  unfold aff_bnd at 1 2. cbn [fst snd]. rewrite !Et. apply IH.
Qed.

Lemma combine_aff s c data w : combine (map (aff s c) data) w = aff_wd s c (combine data w).
Proof. apply combine_map_l. Qed.

Lemma submat_scale ps c M : submat ps (mscale c M) = mscale (fun i => c (nth i ps O)) (submat ps M).
Proof. reflexivity. Qed.

(** [s], [c] are the shifts and factors of the dimensions of the evaluated (projected) data. *)
Lemma kernel_density_aff d n M pdim ddim data ow refl params s c cs :
  (forall i, 0 < c i) -> (forall i, 0 < cs i) ->
  match params with None => ddim = n /\ cs = c | Some ps => cs = fun i => c (nth i ps O) end ->
  (forall r, refl = Some r -> True) ->
  res_rel (fun f g => forall x, g (aff s cs x) * rprod pdim cs = f x)
    (kernel_density (mkKernel d n M) pdim ddim data ow refl params)
    (kernel_density (mkKernel d n (mscale c M)) pdim ddim (map (aff s cs) data) ow
       (option_map (aff_refl s cs 0) refl) params).
Proof.
  intros Hc Hcs Hpar _. unfold kernel_density.
  apply res_rel_bind with (P := fun a b => fst a = fst b /\ snd b = mscale cs (snd a)
     /\ (pdim = ddim -> fst a = pdim)).
  { cbn [k_ndim k_matrix]. destruct params as [ps|].
    - destruct (forallb _ ps); [|reflexivity].
      destruct (Nat.eqb_spec pdim (length ps)); [|reflexivity]. cbn [res_rel fst snd].
      subst cs. repeat split; congruence.
    - destruct Hpar as [-> ->]. cbn [res_rel fst snd]. repeat split; congruence. }
  intros [n1 M1] [n2 M2]. cbn [fst snd k_dist]. intros [<- [-> Hn1]].
  destruct (Nat.eqb_spec pdim ddim) as [E|]; cbn [negb]; [|reflexivity].
  specialize (Hn1 E). subst n1. clear Hpar.
  apply res_rel_bind with (P := eq).
  { destruct ow as [w|]; [rewrite map_length; destruct (Nat.eqb _ _); reflexivity|].
    cbn [res_rel]. rewrite map_map. reflexivity. }
  intros w ? <-.
  rewrite minv_scale by assumption. destruct (minv pdim M1) as [N|]; [|reflexivity]. cbn [option_map].
  rewrite chol_scale by (intros i; apply Rinv_0_lt_compat, Hcs).
  destruct (chol pdim N) as [W|]; [|reflexivity]. cbn [option_map].
  rewrite combine_aff.
  assert (Hnorm : sqrt (Rabs (mdet pdim (mscale cs M1))) = rprod pdim cs * sqrt (Rabs (mdet pdim M1))).
  { rewrite mdet_scale by assumption.
    assert (HP : 0 < rprod pdim cs) by (apply rprod_pos; intros; apply Hcs).
    rewrite Rabs_mult, (Rabs_pos_eq (rprod pdim cs * rprod pdim cs)) by nra.
    rewrite sqrt_mult by (try apply Rabs_pos; nra). rewrite sqrt_square by lra. reflexivity. }
  rewrite Hnorm.
  assert (HP : 0 < rprod pdim cs) by (apply rprod_pos; intros; apply Hcs).
  assert (Hdiv : forall a Z Y, a / (rprod pdim cs * Z * Y) * rprod pdim cs = a / (Z * Y)).
  { intros a Z Y. unfold Rdiv. rewrite Rmult_assoc. f_equal.
    rewrite Rmult_assoc, Rinv_mult. rewrite (Rmult_comm (/ rprod pdim cs)), Rmult_assoc, Rinv_l by lra. ring. }
  destruct refl as [r|]; cbn [option_map].
  - rewrite aff_refl_length. destruct (Nat.eqb (length r) ddim); cbn [negb]; [|reflexivity].
    intros x. rewrite Hdiv. f_equal.
    rewrite eval_numba_aff by assumption.
    apply reflect_loop_aff; [assumption|]. intros l. apply eval_numba_aff; assumption.
  - intros x. rewrite Hdiv. f_equal. apply eval_numba_aff; assumption.
Qed.

(* ---------------------------------------------------------------- covariance *)
Lemma sumf_snd_aff s c wd (g : R -> R) : sumf (fun dw => g (snd dw)) (aff_wd s c wd) = sumf (fun dw => g (snd dw)) wd.
Proof. unfold aff_wd. rewrite sumf_map. reflexivity. Qed.

Lemma np_cov_aff s c wd : sumf snd wd <> 0 ->
  np_cov (aff_wd s c wd) = option_map (mscale c) (np_cov wd).
Proof.
  intros Hne. unfold np_cov.
  assert (Ef : cov_fact (aff_wd s c wd) = cov_fact wd).
  { unfold cov_fact, aff_wd. rewrite !sumf_map. reflexivity. }
  rewrite Ef. destruct (Rleb (cov_fact wd) 0); [reflexivity|]. cbn [option_map]. f_equal.
  assert (Em : forall i, wmean (aff_wd s c wd) i = s i + c i * wmean wd i).
  { intros i. unfold wmean, aff_wd. rewrite !sumf_map. cbn [fst snd].
    rewrite (sumf_ext (fun x : pt * R => snd x * aff s c (fst x) i)
               (fun dw : pt * R => s i * snd dw + c i * (snd dw * fst dw i))) by (intros; unfold aff; ring).
    rewrite sumf_plus, !sumf_scal. change (sumf (fun x => snd x) wd) with (sumf snd wd).
    field. exact Hne. }
  extensionality i. extensionality j. unfold mscale. rewrite !Em.
  unfold aff_wd. rewrite sumf_map. cbn [fst snd].
  rewrite (sumf_ext _ (fun dw : pt * R => c i * c j * (snd dw * (fst dw i - wmean wd i) * (fst dw j - wmean wd j))))
    by (intros; unfold aff; ring).
  rewrite sumf_scal. unfold Rdiv. ring.
Qed.

Lemma kernel_matrix_scale c cov bw : kernel_matrix (mscale c cov) bw = mscale c (kernel_matrix cov bw).
Proof. extensionality i. extensionality j. unfold kernel_matrix, mscale. ring. Qed.

(** Positive total weight of a validated weight argument. *)
Lemma check_weights_pos m w ow : check_weights m w = Ok ow ->
  match ow with
  | None => w = WNone
  | Some l => length l = m /\ (forall v, In v l -> 0 <= v) /\ (exists v, In v l /\ 0 < v)
  end.
Proof.
  destruct w as [|l|l]; simpl; intros H.
  - injection H as <-. reflexivity.
  - destruct (Nat.eqb_spec (length l) m) as [El|]; [|discriminate]. cbn [negb] in H.
    destruct (existsb f_nonzero l) eqn:E1; [|discriminate]. cbn [negb] in H.
    destruct (existsb _ l) eqn:E2 in H; [discriminate|]. injection H as <-.
    assert (Hall : forall x, In x l -> exists r, x = Fin r /\ 0 <= r).
    { intros x Hx. destruct (orb (negb (f_isfinite x)) (f_neg x)) eqn:Ex.
      - assert (existsb (fun x => orb (negb (f_isfinite x)) (f_neg x)) l = true)
          by (apply existsb_exists; exists x; auto). congruence.
      - destruct x as [r| | |]; try discriminate Ex. exists r. split; [reflexivity|].
        cbn in Ex. apply Rltb_false in Ex. exact Ex. }
    split; [rewrite map_length; exact El|split].
    + intros v Hv. apply in_map_iff in Hv. destruct Hv as [x [<- Hx]].
      destruct (Hall x Hx) as [r [-> Hr]]. exact Hr.
    + apply existsb_exists in E1. destruct E1 as [x [Hx Hnz]].
      destruct (Hall x Hx) as [r [-> Hr]]. exists r. split.
      * apply in_map_iff. exists (Fin r). auto.
      * cbn in Hnz. destruct (Reqb_spec r 0); [discriminate|]. lra.
  - destruct (negb (Nat.eqb (length l) m)); [discriminate|].
    destruct (negb (existsb f_nonzero l)); discriminate.
Qed.

Lemma lsum_pos_of l : (forall v, In v l -> 0 <= v) -> (exists v, In v l /\ 0 < v) -> 0 < lsum l.
Proof.
  intros H [v [Hv Hp]]. induction l as [|a l IH]; [contradiction|]. cbn [lsum fold_right].
  change (fold_right Rplus 0 l) with (lsum l).
  pose proof (H a (or_introl eq_refl)).
  pose proof (lsum_nonneg l (fun x Hx => H x (or_intror Hx))).
  destruct Hv as [->|Hv]; [lra|].
  specialize (IH (fun x Hx => H x (or_intror Hx)) Hv). lra.
Qed.

Lemma sumf_snd_combine (data : list pt) (w : list R) : length w = length data -> sumf snd (combine data w) = lsum w.
Proof. intros H. unfold sumf. rewrite map_snd_combine by exact H. reflexivity. Qed.

Lemma wdata_of_pos data w ow : check_weights (length data) w = Ok ow -> length data <> O ->
  0 < sumf snd (wdata_of data ow).
Proof.
  intros H Hd. apply check_weights_pos in H. unfold wdata_of, wlist. destruct ow as [l|].
  - destruct H as [Hl [H1 H2]]. rewrite sumf_snd_combine by exact Hl. apply lsum_pos_of; assumption.
  - rewrite sumf_snd_combine by apply map_length. apply lsum_pos_of.
    + intros v Hv. apply in_map_iff in Hv. destruct Hv as [? [<- _]]. lra.
    + destruct data as [|a data]; [contradiction Hd; reflexivity|]. exists 1. split; [left; reflexivity|lra].
Qed.

(* ---------------------------------------------------------------- C06 at the KDE level *)
Lemma select_aff ps s c x : select ps (aff s c x) = aff (fun i => s (nth i ps O)) (fun i => c (nth i ps O)) (select ps x).
Proof. reflexivity. Qed.

Lemma nth_aff_refl s c r q : forall ii, nth q (aff_refl s c ii r) None
  = option_map (aff_bnd (s (ii + q)%nat) (c (ii + q)%nat)) (nth q r None).
Proof.
  revert q. induction r as [|ob r IH]; intros q ii; simpl.
  - destruct q; reflexivity.
  - destruct q as [|q]; [rewrite Nat.add_0_r; reflexivity|]. rewrite IH.
    rewrite Nat.add_succ_r. reflexivity.
Qed.

Lemma aff_refl_map s c (l : list (option bnd)) : forall ii,
  aff_refl s c ii l = map (fun iq => option_map (aff_bnd (s (fst iq)) (c (fst iq))) (snd iq)) (combine (seq ii (length l)) l).
Proof. induction l as [|a l IH]; intros ii; simpl; [reflexivity|]. rewrite IH. reflexivity. Qed.

Lemma map_nth_aff s c r ps : forall ii (full : list nat), (forall k, nth k ps O = nth (ii + k) full O) ->
  map (fun q => nth q (aff_refl s c 0 r) None) ps
  = aff_refl (fun i => s (nth i full O)) (fun i => c (nth i full O)) ii (map (fun q => nth q r None) ps).
Proof.
  induction ps as [|p ps IH]; intros ii full H; [reflexivity|]. cbn [map aff_refl].
  rewrite nth_aff_refl. cbn [Nat.add]. specialize (H O) as H0. cbn [nth] in H0.
  rewrite Nat.add_0_r in H0. rewrite <- H0. f_equal. apply IH.
  intros k. specialize (H (S k)). cbn [nth] in H. rewrite H. f_equal. lia.
Qed.

Lemma kde_density_aff K K' prob pdim refl p s c :
  (forall i, 0 < c i) ->
  kd_ndim K' = kd_ndim K -> kd_data K' = map (aff s c) (kd_data K) -> kd_weights K' = kd_weights K ->
  (exists d M, kd_kernel K = Some (mkKernel d (kd_ndim K) M) /\ kd_kernel K' = Some (mkKernel d (kd_ndim K) (mscale c M))
    \/ (kd_kernel K = None /\ kd_kernel K' = None)) ->
  kd_reflect K' = option_map (aff_refl s c 0) (kd_reflect K) ->
  let sel := fun g : nat -> R => match resolve_params K p with Ok (Some ps) => fun i => g (nth i ps O) | _ => g end in
  res_rel (fun f g => forall x, g (aff (sel s) (sel c) x) * rprod pdim (sel c) = f x)
    (kde_density K prob pdim refl p)
    (kde_density K' prob pdim (option_map (aff_refl (sel s) (sel c) 0) refl) p).
Proof.
  intros Hc En Ed Ew Hk Er sel. unfold kde_density.
  assert (ER : resolve_params K' p = resolve_params K p) by (unfold resolve_params; rewrite En; reflexivity).
  rewrite ER. destruct (resolve_params K p) as [ops|e] eqn:Eops; [|reflexivity]. cbn [bind].
  set (s' := sel s). set (c' := sel c).
  assert (Hc' : forall i, 0 < c' i) by (intros i; unfold c', sel; destruct ops; apply Hc).
  set (r1 := match refl with Some r => Some r | None => _ end).
  set (r1' := match option_map _ refl with Some r => Some r | None => _ end).
  assert (Er1 : r1' = option_map (aff_refl s' c' 0) r1).
  { unfold r1', r1. destruct refl as [r|]; [reflexivity|]. cbn [option_map]. rewrite Er.
    destruct (kd_reflect K) as [r|]; [|reflexivity]. cbn [option_map].
    destruct ops as [ps|]; [|reflexivity]. cbn [option_map]. f_equal.
    unfold s', c', sel. apply map_nth_aff. intros k. reflexivity. }
  rewrite Er1. rewrite En.
  set (ddim := match ops with None => _ | Some ps => _ end).
  assert (El : (match option_map (aff_refl s' c' 0) r1 with Some r => negb (Nat.eqb (length r) ddim) | None => false end)
             = (match r1 with Some r => negb (Nat.eqb (length r) ddim) | None => false end)).
  { destruct r1; [|reflexivity]. cbn [option_map]. rewrite aff_refl_length. reflexivity. }
  rewrite El. destruct (match r1 with Some r => _ | None => false end); [reflexivity|].
  destruct Hk as [d [M [[Hk1 Hk2]|[Hk1 Hk2]]]]; rewrite Hk1, Hk2; [|reflexivity].
  assert (Edata : (match ops with None => kd_data K' | Some ps => map (select ps) (kd_data K') end)
     = map (aff s' c') (match ops with None => kd_data K | Some ps => map (select ps) (kd_data K) end)).
  { unfold s', c', sel. rewrite Ed. destruct ops as [ps|]; [|reflexivity]. rewrite !map_map. reflexivity. }
  rewrite Edata, Ew.
  apply res_rel_bind with (P := fun f g => forall x, g (aff s' c' x) * rprod pdim c' = f x).
  - apply kernel_density_aff with (c := c); auto.
    unfold ddim, c', sel. destruct ops as [ps|]; auto.
  - intros f g Hfg. destruct prob; cbn [res_rel]; [|exact Hfg].
    intros x. rewrite <- Hfg. rewrite Ed, map_length. unfold Rdiv. ring.
Qed.

Lemma kde_init_aff n data w b diag resc d neffa refl s c : (forall i, 0 < c i) ->
  res_rel (fun K K' => kd_ndim K = n /\ kd_ndim K' = n
      /\ kd_data K' = map (aff s c) (kd_data K) /\ kd_weights K' = kd_weights K /\ kd_neff K' = kd_neff K
      /\ (exists d M, kd_kernel K = Some (mkKernel d (kd_ndim K) M) /\ kd_kernel K' = Some (mkKernel d (kd_ndim K) (mscale c M))
           \/ (kd_kernel K = None /\ kd_kernel K' = None))
      /\ kd_reflect K' = option_map (aff_refl s c 0) (kd_reflect K))
    (kde_init n data w b diag resc d None neffa refl)
    (kde_init n (map (aff s c) data) w b diag resc d None neffa (option_map (aff_refl s c 0) refl)).
Proof.
  intros Hc. unfold kde_init. rewrite map_length.
  destruct (Nat.eqb_spec (length data) 0) as [|Hd]; [reflexivity|].
  destruct (check_weights (length data) w) as [ow|e] eqn:Ew; [|reflexivity]. cbn [bind].
  destruct (set_bandwidth _ n diag b resc) as [bw|e]; [|reflexivity]. cbn [bind res_rel].
  cbn [kd_ndim kd_data kd_weights kd_neff kd_kernel kd_reflect].
  repeat split. 
  assert (Ewd : wdata_of (map (aff s c) data) ow = aff_wd s c (wdata_of data ow)).
  { unfold wdata_of. rewrite <- combine_aff. f_equal. unfold wlist. destruct ow; [reflexivity|].
    rewrite map_map. reflexivity. }
  rewrite Ewd, np_cov_aff by (pose proof (wdata_of_pos data w ow Ew Hd); lra).
  destruct (np_cov (wdata_of data ow)) as [cov|]; cbn [option_map].
  - exists d, (kernel_matrix cov bw). left. unfold kernel_init. rewrite kernel_matrix_scale. auto.
  - exists d, (fun _ _ => 0). right. auto.
Qed.

(* ---------------------------------------------------------------- C04: scaling the weights *)

Lemma check_weights_scale c m l : 0 < c ->
  res_rel (fun a b => b = option_map (map (Rmult c)) a)
    (check_weights m (WArr l)) (check_weights m (WArr (map (fscale c) l))).
Proof.
  intros Hc. unfold check_weights. rewrite map_length.
  destruct (negb (Nat.eqb (length l) m)); [reflexivity|].
  assert (E1 : existsb f_nonzero (map (fscale c) l) = existsb f_nonzero l).
  { induction l as [|x l IH]; simpl; [reflexivity|]. rewrite IH. f_equal. destruct x; try reflexivity.
    simpl. f_equal. destruct (Reqb_spec (c * r) 0), (Reqb_spec r 0); try reflexivity; exfalso; nra. }
  assert (E2 : existsb (fun x => orb (negb (f_isfinite x)) (f_neg x)) (map (fscale c) l)
             = existsb (fun x => orb (negb (f_isfinite x)) (f_neg x)) l).
  { clear E1. induction l as [|x l IH]; simpl; [reflexivity|]. rewrite IH. f_equal. destruct x; try reflexivity.
    simpl. destruct (Rltb_spec (c * r) 0), (Rltb_spec r 0); try reflexivity; exfalso; nra. }
  rewrite E1, E2. destruct (negb (existsb f_nonzero l)); [reflexivity|].
  destruct (existsb (fun x => orb (negb (f_isfinite x)) (f_neg x)) l) eqn:Ex; [reflexivity|]. cbn [res_rel option_map]. f_equal.
  rewrite !map_map. apply map_ext_in. intros x Hx. destruct x as [r| | |]; try reflexivity;
    exfalso; assert (existsb (fun x => orb (negb (f_isfinite x)) (f_neg x)) l = true)
      by (apply existsb_exists; eexists; split; [exact Hx|reflexivity]); congruence.
Qed.

Definition wscale (c : R) (wd : list (pt * R)) := map (fun dw => (fst dw, c * snd dw)) wd.

Lemma combine_wscale c (data : list pt) w : combine data (map (Rmult c) w) = wscale c (combine data w).
Proof. apply combine_map_r. Qed.

Lemma neff_scale c m w : c <> 0 -> neff_of m (Some (map (Rmult c) w)) = neff_of m (Some w).
Proof.
  intros Hc. unfold neff_of, sumsq. rewrite lsum_scal, sumf_map.
  rewrite (sumf_ext _ (fun x => (c * c) * (x * x))) by (intros; ring). rewrite sumf_scal.
  unfold Rdiv. rewrite Rinv_mult. rewrite Rinv_mult.
  replace ((c * lsum w) ^ 2 * (/ c * / c * / sumf (fun x => x * x) w))
    with ((c * / c) * (c * / c) * (lsum w ^ 2 * / sumf (fun x => x * x) w)) by ring.
  rewrite Rinv_r by exact Hc. ring.
Qed.

Lemma np_cov_wscale c wd : 0 < c -> np_cov (wscale c wd) = np_cov wd.
Proof.
  intros Hc. unfold np_cov.
  assert (Ef : cov_fact (wscale c wd) = c * cov_fact wd).
  { unfold cov_fact, wscale. rewrite !sumf_map. cbn [fst snd].
    rewrite sumf_scal. rewrite (sumf_ext (fun x => c * snd x * (c * snd x)) (fun x => (c * c) * (snd x * snd x)))
      by (intros; ring). rewrite sumf_scal. unfold Rdiv. rewrite Rinv_mult.
    change (sumf (fun x => snd x) wd) with (sumf snd wd).
    set (S1 := sumf snd wd). set (S2 := sumf _ wd).
    replace (c * c * S2 * (/ c * / S1)) with (c * / c * (c * (S2 * / S1))) by ring.
    rewrite Rinv_r by lra. ring. }
  rewrite Ef.
  assert (Eb : Rleb (c * cov_fact wd) 0 = Rleb (cov_fact wd) 0).
  { destruct (Rleb_spec (c * cov_fact wd) 0), (Rleb_spec (cov_fact wd) 0); try reflexivity; exfalso; nra. }
  rewrite Eb. destruct (Rleb_spec (cov_fact wd) 0) as [|Hn]; [reflexivity|]. f_equal.
  assert (Em : forall i, wmean (wscale c wd) i = wmean wd i).
  { intros i. unfold wmean, wscale. rewrite !sumf_map. cbn [fst snd].
    rewrite (sumf_ext (fun x : pt * R => c * snd x * fst x i) (fun dw : pt * R => c * (snd dw * fst dw i)))
      by (intros; ring). rewrite !sumf_scal.
    unfold Rdiv. rewrite Rinv_mult. change (sumf (fun x => snd x) wd) with (sumf snd wd).
    replace (c * sumf (fun dw : pt * R => snd dw * fst dw i) wd * (/ c * / sumf snd wd))
      with (c * / c * (sumf (fun dw : pt * R => snd dw * fst dw i) wd * / sumf snd wd)) by ring.
    rewrite Rinv_r by lra. ring. }
  extensionality i. extensionality j. rewrite !Em. unfold wscale. rewrite sumf_map. cbn [fst snd].
  rewrite (sumf_ext _ (fun dw : pt * R => c * (snd dw * (fst dw i - wmean wd i) * (fst dw j - wmean wd j))))
    by (intros; ring).
  rewrite sumf_scal. field. lra.
Qed.

Lemma eval_numba_wscale n W k c wd x : eval_numba n W k (wscale c wd) x = c * eval_numba n W k wd x.
Proof.
  unfold eval_numba, wscale. rewrite sumf_map, <- sumf_scal. apply sumf_ext; intros; cbn [fst snd]; ring.
Qed.

Lemma reflect_loop_wscale c ev wd x refl :
  (forall l, ev (wscale c l) = c * ev l) -> forall ii acc,
  reflect_loop ev (wscale c wd) x ii refl (c * acc) = c * reflect_loop ev wd x ii refl acc.
Proof.
  intros Hev. induction refl as [|[b|] refl IH]; intros ii acc; cbn [reflect_loop]; [reflexivity| |apply IH].
  assert (Hm : forall loc, mirror ii loc (wscale c wd) = wscale c (mirror ii loc wd)).
  { intros loc. unfold mirror, wscale. rewrite !map_map. reflexivity. }
  assert (Ho : forall o, opt_term (fun loc => ev (mirror ii loc (wscale c wd))) o
                       = c * opt_term (fun loc => ev (mirror ii loc wd)) o).
  { intros [loc|]; cbn [opt_term]; [rewrite Hm; apply Hev|ring]. }
  rewrite !Ho. destruct (outside b (x ii)).
  - rewrite <- IH. f_equal. ring.
  - rewrite <- IH. f_equal. ring.
Qed.

Lemma kernel_density_wscale c K pdim ddim data w refl params :
  res_rel (fun f g => forall x, g x = c * f x)
    (kernel_density K pdim ddim data (Some w) refl params)
    (kernel_density K pdim ddim data (Some (map (Rmult c) w)) refl params).
Proof.
  unfold kernel_density. apply res_rel_bind with (P := eq).
  { destruct params as [ps|]; [|reflexivity]. destruct (forallb _ ps); [|reflexivity].
    destruct (Nat.eqb pdim (length ps)); reflexivity. }
  intros [n M] ? <-. cbn [fst snd]. destruct (negb (Nat.eqb pdim ddim)); [reflexivity|].
  rewrite map_length. destruct (Nat.eqb (length w) (length data)); [|reflexivity]. cbn [bind].
  destruct (minv n M) as [N|]; [|reflexivity]. destruct (chol n N) as [W|]; [|reflexivity].
  rewrite combine_wscale. destruct refl as [r|].
  - destruct (negb (Nat.eqb (length r) ddim)); [reflexivity|]. intros x. unfold Rdiv.
    rewrite eval_numba_wscale, reflect_loop_wscale by (intros; apply eval_numba_wscale). ring.
  - intros x. rewrite eval_numba_wscale. unfold Rdiv. ring.
Qed.

Lemma kde_init_wscale c n data l b diag resc d cova neffa refl : 0 < c ->
  res_rel (fun K K' => same_kde K K' /\ kd_data K' = kd_data K
             /\ exists w, kd_weights K = Some w /\ kd_weights K' = Some (map (Rmult c) w))
    (kde_init n data (WArr l) b diag resc d cova neffa refl)
    (kde_init n data (WArr (map (fscale c) l)) b diag resc d cova neffa refl).
Proof.
  intros Hc. unfold kde_init. destruct (Nat.eqb (length data) 0); [reflexivity|].
  apply res_rel_bind with (P := fun a b => b = option_map (map (Rmult c)) a /\ exists w, a = Some w).
  - pose proof (check_weights_scale c (length data) l Hc) as H.
    destruct (check_weights (length data) (WArr l)) as [a|] eqn:Ea,
             (check_weights (length data) (WArr (map (fscale c) l))) as [a'|]; cbn [res_rel] in *;
      try contradiction; auto. split; [exact H|].
    cbn in Ea. repeat (match type of Ea with (if ?t then _ else _) = _ => destruct t end; try discriminate Ea).
    injection Ea as <-. eauto.
  - intros a a' [-> [w ->]]. cbn [option_map]. rewrite neff_scale by lra.
    unfold wdata_of, wlist. rewrite combine_wscale, np_cov_wscale by assumption.
    destruct (set_bandwidth _ n diag b resc) as [bw|]; [|reflexivity]. cbn [bind res_rel].
    repeat split. exists w. split; reflexivity.
Qed.

Lemma kde_density_wscale c K K' (prob : bool) pdim refl p w : c <> 0 ->
  same_kde K K' -> kd_data K' = kd_data K ->
  kd_weights K = Some w -> kd_weights K' = Some (map (Rmult c) w) ->
  res_rel (fun (f g : pt -> R) => forall x, g x = (if prob then 1 else c) * f x)
    (kde_density K prob pdim refl p) (kde_density K' prob pdim refl p).
Proof.
  intros Hc [E1 [E2 [E3 E4]]] Ed Hw Hw'. unfold kde_density.
  assert (ER : resolve_params K' p = resolve_params K p) by (unfold resolve_params; rewrite E1; reflexivity).
  rewrite ER. destruct (resolve_params K p) as [ops|e]; [|reflexivity]. cbn [bind].
  rewrite <- E1, <- E3, <- E4, Ed, Hw, Hw'.
  set (r1 := match refl with Some r => Some r | None => _ end).
  destruct (match r1 with Some r => _ | None => false end); [reflexivity|].
  destruct (kd_kernel K) as [kern|]; [|reflexivity].
  apply res_rel_bind with (P := fun f g => forall x, g x = c * f x).
  - apply kernel_density_wscale.
  - intros f g Hfg. destruct prob; cbn [res_rel]; [|exact Hfg]. intros x. rewrite Hfg, lsum_scal.
    unfold Rdiv. rewrite Rinv_mult. replace (c * f x * (/ c * / lsum w)) with (c * / c * (f x * / lsum w)) by ring.
    rewrite Rinv_r by exact Hc. ring.
Qed.

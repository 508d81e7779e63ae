(** C131: continuity in the evaluation point. *)
From Coquelicot Require Import Coquelicot.
From Verif Require Import Base ModelLinAlg SpecLinAlg ProofLinAlg ModelKernels SpecKernels ProofKernels ModelKDE SpecKDE SpecContinuous ProofDensity ProofKDE ProofTop ProofTop2 ProofInt2.
Open Scope R_scope.
Notation length := List.length.

Lemma cw_const n S c x : continuous_within n S (fun _ => c) x.
Proof. intros eps He. exists 1. split; [lra|]. intros y _ _. rewrite Rminus_diag_eq, Rabs_R0 by reflexivity. exact He. Qed.
Lemma cw_coord n S i x : (i < n)%nat -> continuous_within n S (fun y => y i) x.
Proof. intros Hi eps He. exists eps. split; [exact He|]. intros y _ H. apply H, Hi. Qed.
Lemma cw_plus n S f g x : continuous_within n S f x -> continuous_within n S g x -> continuous_within n S (fun y => f y + g y) x.
Proof.
  intros Hf Hg eps He. destruct (Hf (eps / 2)) as (d1 & D1 & F1); [lra|]. destruct (Hg (eps / 2)) as (d2 & D2 & F2); [lra|].
  exists (Rmin d1 d2). split; [apply Rmin_pos; assumption|]. intros y Hy Hn. replace (f y + g y - (f x + g x)) with ((f y - f x) + (g y - g x)) by ring.
  eapply Rle_lt_trans; [apply Rabs_triang|]. assert (A : Rabs (f y - f x) < eps / 2) by (apply F1; [exact Hy|]; intros i Hi; eapply Rlt_le_trans; [apply Hn, Hi|apply Rmin_l]).
  assert (B : Rabs (g y - g x) < eps / 2) by (apply F2; [exact Hy|]; intros i Hi; eapply Rlt_le_trans; [apply Hn, Hi|apply Rmin_r]). lra.
Qed.
Lemma cw_comp n S f (g : R -> R) x : continuous_within n S f x -> continuous g (f x) -> continuous_within n S (fun y => g (f y)) x.
Proof.
  intros Hf Hg eps He. assert (L := proj1 (filterlim_locally g (g (f x))) Hg (mkposreal eps He)). destruct L as [d Hd].
  destruct (Hf d (cond_pos d)) as (delta & D & F). exists delta. split; [exact D|]. intros y Hy Hn. apply (Hd (f y)). apply F; assumption.
Qed.
Lemma cw_mult n S f g x : continuous_within n S f x -> continuous_within n S g x -> continuous_within n S (fun y => f y * g y) x.
Proof.
  intros Hf Hg. assert (Q : forall h, continuous_within n S h x -> continuous_within n S (fun y => h y * h y) x).
  { intros h Hh. apply (cw_comp n S h (fun v => v * v) x Hh). apply (continuous_mult (fun v : R => v) (fun v => v)); apply continuous_id. }
  assert (E : forall h k, continuous_within n S h x -> (forall y, k y = h y) -> continuous_within n S k x).
  { intros h k Hh Hk eps He. destruct (Hh eps He) as (d & D & F). exists d. split; [exact D|]. intros y Hy Hn. rewrite !Hk. apply F; assumption. }
  assert (Sc : forall c h, continuous_within n S h x -> continuous_within n S (fun y => c * h y) x).
  { intros c h Hh. apply (cw_comp n S h (fun v => c * v) x Hh). apply (continuous_mult (fun _ : R => c) (fun v => v)); [apply continuous_const|apply continuous_id]. }
  apply (E (fun y => / 4 * ((f y + g y) * (f y + g y)) + (- / 4) * ((f y + (-1) * g y) * (f y + (-1) * g y)))).
  - apply cw_plus; apply Sc; apply Q; apply cw_plus; auto.
  - intros y. field.
Qed.
Lemma cw_rsum n S m (f : nat -> pt -> R) x : (forall k, (k < m)%nat -> continuous_within n S (f k) x) -> continuous_within n S (fun y => rsum m (fun k => f k y)) x.
Proof. induction m as [|m IH]; intros H; cbn [rsum]; [exact (cw_const n S 0 x)|]. apply cw_plus; [apply IH; intros k Hk; apply H; lia|apply H; lia]. Qed.
Lemma cw_sumf {A} n S (l : list A) (f : A -> pt -> R) x : (forall a, In a l -> continuous_within n S (f a) x) -> continuous_within n S (fun y => sumf (fun a => f a y) l) x.
Proof.
  induction l as [|a l IH]; intros H; [exact (cw_const n S 0 x)|]. intros eps He. destruct (cw_plus n S (f a) (fun y => sumf (fun a => f a y) l) x (H a (or_introl eq_refl)) (IH (fun b Hb => H b (or_intror Hb))) eps He) as (d & D & F).
  exists d. split; [exact D|]. intros y Hy Hn. rewrite !sumf_cons. apply F; assumption.
Qed.
Lemma prof_cont d v : d <> Box -> continuous (prof d) v.
Proof.
  intros Hd. assert (HM : forall u : R, continuous (fun t => Rmax t 0) u).
  { intros u. apply continuous_ext with (fun t => (t + Rabs t) / 2).
    - intros t. unfold Rmax. destruct (Rle_dec t 0); [rewrite Rabs_left1 by lra; lra|rewrite Rabs_right by lra; lra].
    - apply (continuous_mult (fun t : R => t + Rabs t) (fun _ => / 2)); [|apply continuous_const]. apply (continuous_plus (fun t : R => t)); [apply continuous_id|]. apply continuous_Rabs. }
  destruct d; [| contradiction | |].
  - apply (continuous_comp (fun t => - t / 2) exp); [|apply continuous_exp]. apply (continuous_mult (fun t : R => - t) (fun _ => / 2)); [|apply continuous_const]. apply (continuous_opp (fun t : R => t)). apply continuous_id.
  - apply (continuous_comp (fun t => 1 - t) (fun t => Rmax t 0)); [|apply HM]. apply (continuous_minus (fun _ : R => 1) (fun t => t)); [apply continuous_const|apply continuous_id].
  - apply (continuous_comp (fun t => (1 - t) ^ 3) (fun t => Rmax t 0)); [|apply HM]. apply (continuous_comp (fun t => 1 - t) (fun t => t ^ 3)).
    + apply (continuous_minus (fun _ : R => 1) (fun t => t)); [apply continuous_const|apply continuous_id].
    + apply (ex_derive_continuous (K := R_AbsRing) (V := R_NormedModule) (fun t : R => t ^ 3)). auto_derive. exact I.
Qed.
Lemma cw_eval n d W wd S x : d <> Box -> continuous_within n S (eval_numba n W (prof d) wd) x.
Proof.
  intros Hd. unfold eval_numba. apply cw_sumf. intros dw _. apply cw_mult; [|apply cw_const].
  apply (cw_comp n S (fun y => white_dist2 n W y (fst dw)) (prof d) x); [|apply prof_cont, Hd].
  unfold white_dist2. apply cw_rsum. intros k _. cbv zeta. 
  assert (A : continuous_within n S (fun y => rsum n (fun l => W k l * y l) - rsum n (fun l => W k l * fst dw l)) x).
  { apply cw_plus; [|apply cw_const]. apply cw_rsum. intros l Hl. apply cw_mult; [apply cw_const|apply cw_coord, Hl]. }
  apply cw_mult; exact A.
Qed.
Lemma cw_sub n (S T : pt -> Prop) f x : (forall y, T y -> S y) -> continuous_within n S f x -> continuous_within n T f x.
Proof. intros H Hf eps He. destruct (Hf eps He) as (d & D & F). exists d. split; [exact D|]. intros y Hy. apply F, H, Hy. Qed.
Lemma between_outside b v : between b v <-> outside b v = false.
Proof.
  unfold between, outside. rewrite Bool.orb_false_iff. destruct b as [[lo|] [hi|]]; cbn [fst snd]; split.
  - intros [A B]. split; apply Rltb_false; auto.
  - intros [A B]. apply Rltb_false in A. apply Rltb_false in B. split; intros ? [= <-]; lra.
  - intros [A B]. split; [apply Rltb_false; auto|reflexivity].
  - intros [A B]. apply Rltb_false in A. split; [intros ? [= <-]; lra|discriminate].
  - intros [A B]. split; [reflexivity|apply Rltb_false; auto].
  - intros [A B]. apply Rltb_false in B. split; [discriminate|intros ? [= <-]; lra].
  - auto.
  - intros _. split; discriminate.
Qed.
Lemma cw_loop n d W x (S : pt -> Prop) wd : d <> Box -> forall refl ii acc,
  (forall i b, nth_error refl i = Some (Some b) -> forall y, S y -> outside b (y (ii + i)%nat) = outside b (x (ii + i)%nat)) ->
  continuous_within n S acc x ->
  continuous_within n S (fun y => reflect_loop (fun wd => eval_numba n W (prof d) wd y) wd y ii refl (acc y)) x.
Proof.
  intros Hd. induction refl as [|[b|] refl IH]; intros ii acc Hs Ha; cbn [reflect_loop]; [exact Ha| |].
  - cbv zeta. set (acc2 := fun y => acc y + opt_term (fun loc => eval_numba n W (prof d) (mirror ii loc wd) y) (fst b) + opt_term (fun loc => eval_numba n W (prof d) (mirror ii loc wd) y) (snd b)).
    apply (IH (Datatypes.S ii) (fun y => if outside b (y ii) then 0 else acc2 y)).
    + intros i b' Hb y Hy. replace (Datatypes.S ii + i)%nat with (ii + Datatypes.S i)%nat by lia. apply Hs; [exact Hb|exact Hy].
    + assert (H2 : continuous_within n S acc2 x).
      { unfold acc2. apply cw_plus; [apply cw_plus; [exact Ha|]|]; [destruct (fst b)|destruct (snd b)]; cbn [opt_term]; try apply cw_const; apply cw_eval, Hd. }
      assert (E : forall y, S y -> outside b (y ii) = outside b (x ii)). { intros y Hy. pose proof (Hs 0%nat b eq_refl y Hy) as E. rewrite Nat.add_0_r in E. exact E. }
      intros eps He. destruct (outside b (x ii)) eqn:Ex.
      * exists 1. split; [lra|]. intros y Hy _. rewrite (E y Hy). rewrite Rminus_diag_eq, Rabs_R0 by reflexivity. exact He.
      * destruct (H2 eps He) as (dl & D & F). exists dl. split; [exact D|]. intros y Hy Hn. rewrite (E y Hy). apply F; assumption.
  - apply IH; [|exact Ha]. intros i b' Hb y Hy. replace (Datatypes.S ii + i)%nat with (ii + Datatypes.S i)%nat by lia. apply Hs; [exact Hb|exact Hy].
Qed.
Lemma kernel_cont K pdim ddim data ow refl params f x : k_dist K <> Box -> (params = None -> pdim = k_ndim K) -> kernel_density K pdim ddim data ow refl params = Ok f ->
  continuous_within pdim (match refl with None => fun _ => True | Some r => same_side r x end) f x.
Proof.
  intros Hd Hp H. destruct (kernel_density_inv _ _ _ _ _ _ _ _ H) as (n & M & N & W & w & Hsel & E & _ & _ & Ew & Hl & Hf).
  assert (En : n = pdim). { destruct params; [destruct Hsel as (A & _ & B & _); lia|destruct Hsel as (A & _); rewrite (Hp eq_refl); exact A]. }
  subst n. subst f. destruct refl as [r|].
  - apply cw_mult; [|apply cw_const]. apply (cw_loop pdim (k_dist K) W x _ (combine data w) Hd r 0%nat (fun y => eval_numba pdim W (prof (k_dist K)) (combine data w) y)).
    + intros i b Hb y Hy. cbn [Nat.add]. specialize (Hy i b Hb). rewrite !between_outside in Hy. destruct (outside b (y i)), (outside b (x i)); try reflexivity; [discriminate (proj1 Hy eq_refl)|discriminate (proj2 Hy eq_refl)].
    + apply cw_eval, Hd.
  - apply cw_mult; [|apply cw_const]. apply cw_eval, Hd.
Qed.

Lemma kde_cont n data w b diag resc d cova neffa stored K (prob : bool) pdim given p f x r : d <> Box ->
  kde_init n data w b diag resc d cova neffa stored = Ok K -> kde_density K prob pdim given p = Ok f ->
  match p with PNone => in_force K given r | _ => match given with Some _ => r = given | None => kd_reflect K = None /\ r = None end end ->
  continuous_within pdim (match r with None => fun _ => True | Some l => same_side l x end) f x.
Proof.
  intros Hd HK Hf Hr. assert (HD : kd_ndim K = n /\ forall k, kd_kernel K = Some k -> k_ndim k = n /\ k_dist k = d).
  { unfold kde_init in HK. destruct (length data =? 0)%nat; [discriminate|]. destruct (check_weights _ w) as [ow|]; [|discriminate]. cbn [bind] in HK.
    destruct (set_bandwidth _ _ _ _ _) as [bw|]; [|discriminate]. cbn [bind] in HK. apply (f_equal (fun r => match r with Ok k => k | Err _ => K end)) in HK. cbn in HK. subst K. cbn [kd_ndim kd_kernel]. split; [reflexivity|].
    intros k Hk. destruct (match cova with Some c => Some c | None => _ end); [|discriminate]. injection Hk as <-. split; reflexivity. }
  destruct HD as [HD1 HD2]. unfold kde_density in Hf. destruct (resolve_params K p) as [ops|] eqn:Ep; [|discriminate]. cbn [bind] in Hf.
  set (refl1 := match given with Some r => Some r | None => match kd_reflect K, ops with None, _ => None | Some r, None => Some r | Some r, Some ps => Some (map (fun q => nth q r None) ps) end end) in *.
  match type of Hf with (if ?c then _ else _) = _ => destruct c; [discriminate|] end.
  destruct (kd_kernel K) as [kern|]; [|discriminate]. destruct (HD2 kern eq_refl) as [Hn Hk].
  match type of Hf with bind ?e _ = _ => destruct e as [g|] eqn:Eg; [|discriminate] end. cbn [bind] in Hf.
  assert (Er : refl1 = r). { unfold refl1. destruct p; cbn [resolve_params] in Ep.
    - injection Ep as <-. unfold in_force in Hr. destruct given; [congruence|]. rewrite Hr. destruct (kd_reflect K); reflexivity.
    - destruct given; [congruence|]. destruct Hr as [Hr ->]. rewrite Hr. reflexivity.
    - destruct given; [congruence|]. destruct Hr as [Hr ->]. rewrite Hr. reflexivity. }
  assert (Hg : continuous_within pdim (match r with None => fun _ => True | Some l => same_side l x end) g x).
  { rewrite <- Er. refine (kernel_cont kern pdim _ _ _ refl1 ops g x _ _ Eg); [congruence|]. intros ->. unfold kernel_density in Eg. cbn [bind fst snd] in Eg.
    destruct (Nat.eqb_spec pdim (kd_ndim K)) as [E|]; [|discriminate]. lia. }
  injection Hf as <-. destruct prob; [|exact Hg]. apply cw_mult; [exact Hg|apply cw_const].
Qed.

Theorem plain_continuous : forall n data w b diag resc d cova neffa K (prob : bool) pdim p f, d <> Box ->
  kde_init n data w b diag resc d cova neffa None = Ok K -> kde_density K prob pdim None p = Ok f -> forall x, continuous_at pdim f x.
Proof.
  intros n data w b diag resc d cova neffa K prob pdim p f Hd HK Hf x.
  assert (HR : kd_reflect K = None). { unfold kde_init in HK. destruct (length data =? 0)%nat; [discriminate|]. destruct (check_weights _ w) as [ow|]; [|discriminate]. cbn [bind] in HK.
    destruct (set_bandwidth _ _ _ _ _) as [bw|]; [|discriminate]. cbn [bind] in HK. apply (f_equal (fun r => match r with Ok k => k | Err _ => K end)) in HK. cbn in HK. subst K. reflexivity. }
  apply (kde_cont n data w b diag resc d cova neffa None K prob pdim None p f x None Hd HK Hf). destruct p; [cbn; auto|auto|auto].
Qed.
Theorem side_continuous : forall n data w b diag resc d cova neffa stored K (prob : bool) pdim given f r, d <> Box ->
  kde_init n data w b diag resc d cova neffa stored = Ok K -> kde_density K prob pdim given PNone = Ok f -> in_force K given (Some r) ->
  forall x, continuous_within pdim (same_side r x) f x.
Proof. intros n data w b diag resc d cova neffa stored K prob pdim given f r Hd HK Hf Hr x. exact (kde_cont n data w b diag resc d cova neffa stored K prob pdim given PNone f x (Some r) Hd HK Hf Hr). Qed.
(** Off the boundaries the points near by lie on the same side. *)
Lemma near_side (r : reflspec) : forall x, off_boundaries r x -> exists delta, 0 < delta /\ forall y, near (length r) delta x y -> same_side r x y.
Proof.
  intros x Hx.
  assert (G : forall m, (m <= length r)%nat -> exists delta, 0 < delta /\ forall y, near (length r) delta x y -> forall i b, (i < m)%nat -> nth_error r i = Some (Some b) -> (between b (x i) <-> between b (y i))).
  { induction m as [|m IH]; intros Hm; [exists 1; split; [lra|intros; lia]|]. destruct IH as (d0 & D0 & F0); [lia|].
    assert (Q : exists dq, 0 < dq /\ forall v b, nth_error r m = Some (Some b) -> Rabs (v - x m) < dq -> (between b (x m) <-> between b v)).
    { destruct (nth_error r m) as [[b|]|] eqn:E; [|exists 1; split; [lra|discriminate]|exists 1; split; [lra|discriminate]].
      destruct (Hx m b E) as [A B].
      assert (L : exists d1, 0 < d1 /\ forall v lo, fst b = Some lo -> Rabs (v - x m) < d1 -> (lo <= x m <-> lo <= v)).
      { destruct (fst b) as [lo|] eqn:Eb; [|exists 1; split; [lra|discriminate]]. assert (lo <> x m) by congruence. exists (Rabs (lo - x m)). split; [apply Rabs_pos_lt; lra|].
        intros v lo' [= <-] Hv. revert Hv. unfold Rabs. destruct (Rcase_abs (lo - x m)), (Rcase_abs (v - x m)); intros; split; lra. }
      assert (U : exists d2, 0 < d2 /\ forall v hi, snd b = Some hi -> Rabs (v - x m) < d2 -> (x m <= hi <-> v <= hi)).
      { destruct (snd b) as [hi|] eqn:Eb; [|exists 1; split; [lra|discriminate]]. assert (hi <> x m) by congruence. exists (Rabs (hi - x m)). split; [apply Rabs_pos_lt; lra|].
        intros v lo' [= <-] Hv. revert Hv. unfold Rabs. destruct (Rcase_abs (hi - x m)), (Rcase_abs (v - x m)); intros; split; lra. }
      destruct L as (d1 & D1 & F1), U as (d2 & D2 & F2). exists (Rmin d1 d2). split; [apply Rmin_pos; assumption|]. intros v b' [= <-] Hv.
      assert (V1 : Rabs (v - x m) < d1) by (eapply Rlt_le_trans; [exact Hv|apply Rmin_l]). assert (V2 : Rabs (v - x m) < d2) by (eapply Rlt_le_trans; [exact Hv|apply Rmin_r]).
      unfold between. split; intros [P1 P2]; split.
      - intros lo Hlo. apply (F1 v lo Hlo V1), P1, Hlo.
      - intros hi Hhi. apply (F2 v hi Hhi V2), P2, Hhi.
      - intros lo Hlo. apply (F1 v lo Hlo V1), P1, Hlo.
      - intros hi Hhi. apply (F2 v hi Hhi V2), P2, Hhi. }
    destruct Q as (dq & Dq & Fq). exists (Rmin d0 dq). split; [apply Rmin_pos; assumption|]. intros y Hy i b Hi Hb. destruct (Nat.eq_dec i m) as [->|Hne].
    - apply Fq; [exact Hb|]. eapply Rlt_le_trans; [apply Hy; lia|apply Rmin_r].
    - apply F0; [|lia|exact Hb]. intros k Hk. eapply Rlt_le_trans; [apply Hy, Hk|apply Rmin_l]. }
  destruct (G (length r) (le_n _)) as (dl & D & F). exists dl. split; [exact D|]. intros y Hy i b Hb. apply F; [exact Hy| |exact Hb]. apply nth_error_Some. congruence.
Qed.
Lemma density_refl_length n data w b diag resc d cova neffa stored K (prob : bool) pdim given f r : 
  kde_init n data w b diag resc d cova neffa stored = Ok K -> kde_density K prob pdim given PNone = Ok f -> in_force K given (Some r) -> pdim = length r.
Proof.
  intros HK Hf Hr. unfold kde_density in Hf. cbn [resolve_params bind] in Hf.
  match type of Hf with (if match ?e with Some _ => _ | None => _ end then _ else _) = _ => assert (E : e = Some r) end.
  { unfold in_force in Hr. destruct given; [congruence|]. rewrite <- Hr. reflexivity. }
  rewrite E in Hf. destruct (Nat.eqb_spec (length r) (kd_ndim K)) as [El|]; [|discriminate]. cbn [negb] in Hf. destruct (kd_kernel K) as [kern|]; [|discriminate].
  match type of Hf with bind ?e _ = _ => destruct e as [g|] eqn:Eg; [|discriminate] end. destruct (kernel_density_inv _ _ _ _ _ _ _ _ Eg) as (n' & M & N & W & w' & _ & E' & _). lia.
Qed.
Theorem off_continuous : forall n data w b diag resc d cova neffa stored K (prob : bool) pdim given f r, d <> Box ->
  kde_init n data w b diag resc d cova neffa stored = Ok K -> kde_density K prob pdim given PNone = Ok f -> in_force K given (Some r) ->
  forall x, off_boundaries r x -> continuous_at pdim f x.
Proof.
  intros n data w b diag resc d cova neffa stored K prob pdim given f r Hd HK Hf Hr x Hx.
  pose proof (density_refl_length _ _ _ _ _ _ _ _ _ _ _ _ _ _ _ _ HK Hf Hr) as El. destruct (near_side r x Hx) as (d1 & D1 & F1).
  intros eps He. destruct (side_continuous _ _ _ _ _ _ _ _ _ _ _ _ _ _ _ _ Hd HK Hf Hr x eps He) as (d2 & D2 & F2).
  exists (Rmin d1 d2). split; [apply Rmin_pos; assumption|]. intros y _ Hy. apply F2.
  - apply F1. rewrite <- El. intros i Hi. eapply Rlt_le_trans; [apply Hy, Hi|apply Rmin_l].
  - intros i Hi. eapply Rlt_le_trans; [apply Hy, Hi|apply Rmin_r].
Qed.

(* ------------------------------------------------------------ box kernel *)
Lemma box_local n W wd x : (forall dw, In dw wd -> white_dist2 n W x (fst dw) <> 1) -> exists delta, 0 < delta /\ forall y, near n delta x y -> eval_numba n W (prof Box) wd y = eval_numba n W (prof Box) wd x.
Proof.
  induction wd as [|dw wd IH]; intros H; [exists 1; split; [lra|reflexivity]|].
  destruct IH as (d0 & D0 & F0); [intros e He; apply H; right; exact He|].
  assert (C : continuous_within n (fun _ => True) (fun y => white_dist2 n W y (fst dw)) x).
  { unfold white_dist2. apply cw_rsum. intros k _. cbv zeta. 
    assert (A : continuous_within n (fun _ => True) (fun y => rsum n (fun l => W k l * y l) - rsum n (fun l => W k l * fst dw l)) x).
    { apply cw_plus; [|apply cw_const]. apply cw_rsum. intros l Hl. apply cw_mult; [apply cw_const|apply cw_coord, Hl]. }
    apply cw_mult; exact A. }
  assert (Hne := H dw (or_introl eq_refl)). destruct (C (Rabs (1 - white_dist2 n W x (fst dw)))) as (d1 & D1 & F1); [apply Rabs_pos_lt; lra|].
  exists (Rmin d0 d1). split; [apply Rmin_pos; assumption|]. intros y Hy. unfold eval_numba. rewrite !sumf_cons. f_equal.
  - f_equal. unfold prof. assert (V : Rabs (white_dist2 n W y (fst dw) - white_dist2 n W x (fst dw)) < Rabs (1 - white_dist2 n W x (fst dw))).
    { apply F1; [exact I|]. intros i Hi. eapply Rlt_le_trans; [apply Hy, Hi|apply Rmin_r]. }
    revert V. unfold Rabs. destruct (Rleb_spec (white_dist2 n W y (fst dw)) 1), (Rleb_spec (white_dist2 n W x (fst dw)) 1), (Rcase_abs (white_dist2 n W y (fst dw) - white_dist2 n W x (fst dw))), (Rcase_abs (1 - white_dist2 n W x (fst dw))); intros; try reflexivity; lra.
  - apply F0. intros i Hi. eapply Rlt_le_trans; [apply Hy, Hi|apply Rmin_l].
Qed.
Theorem box_constant : forall n data ws M K (prob : bool) N f, built_kde n data ws Box M None K -> is_inverse n M N -> kde_density K prob n None PNone = Ok f ->
  forall x, (forall p, In p data -> quad n N (psub x p) <> 1) -> exists delta, 0 < delta /\ forall y, near n delta x y -> f y = f x.
Proof.
  intros n data ws M K prob N f HB HN Hf x Hx. destruct (density_plain_ex _ _ _ _ _ _ prob HB) as (g & Hg & Hk). rewrite Hk in Hf. injection Hf as <-.
  destruct HB as (_ & _ & HsM & HpM). destruct (kernel_density_inv _ _ _ _ _ _ _ _ Hg) as (n' & M' & N' & W & w' & [-> ->] & _ & HN' & HW & -> & Hl & ->). cbn [k_ndim k_matrix k_dist] in *.
  pose proof (minv_sym n M N' HN' HsM) as HsN.
  destruct (box_local n W (combine data ws) x) as (dl & D & F).
  { intros [p w] Hin. cbn [fst]. rewrite (white_dist2_quad n N' W) by assumption. rewrite (quad_ext n N' N _ (psub x p)); [apply Hx; exact (in_combine_l _ _ _ _ Hin)| |reflexivity].
    apply (inverse_unique n M); [apply minv_sound, HN'|exact HN]. }
  exists dl. split; [exact D|]. intros y Hy. unfold scaled. destruct prob; rewrite (F y Hy); reflexivity.
Qed.
Lemma kx_val d x y : exists f, kde_density (kx x d) false 1 None PNone = Ok f /\ f y = prof d ((y O - x) * (y O - x)) / dist_norm d 1.
Proof.
  destruct (density_plain_ex _ _ _ _ _ _ false (kx_built x d)) as (g & Hg & Hk). exists g. split; [exact Hk|].
  destruct (kernel_density_inv _ _ _ _ _ _ _ _ Hg) as (n' & M' & N' & W & w' & [-> ->] & _ & HN' & HW & -> & Hl & ->). cbn [k_ndim k_matrix k_dist] in *.
  rewrite mdet_ident, Rabs_R1, sqrt_1, Rmult_1_l. cbn [combine]. unfold eval_numba, sumf. cbn [map lsum fold_right fst snd]. rewrite (ident_white 1 N' W _ _ HN' HW). unfold norm2, psub, pt1. cbn [rsum].
  f_equal. rewrite Rplus_0_l. ring.
Qed.
Theorem box_refuted : exists K f x, built_kde 1 [pt1 0] [1] Box ident None K /\ kde_density K false 1 None PNone = Ok f /\ ~ continuous_at 1 f x.
Proof.
  destruct (kx_val Box 0 (pt1 1)) as (f & Hf & E1). exists (kx 0 Box), f, (pt1 1). split; [apply kx_built|]. split; [exact Hf|]. intros C.
  assert (Hn : 0 < dist_norm Box 1) by (apply dist_norm_pos; lia). destruct (C (/ dist_norm Box 1)) as (dl & D & F); [apply Rinv_0_lt_compat, Hn|].
  destruct (kx_val Box 0 (pt1 (1 + dl / 2))) as (f' & Hf' & E2). rewrite Hf in Hf'. injection Hf' as <-.
  assert (A : Rabs (f (pt1 (1 + dl / 2)) - f (pt1 1)) < / dist_norm Box 1). { apply F; [exact I|]. intros i Hi. unfold pt1. replace (1 + dl / 2 - 1) with (dl / 2) by ring. rewrite Rabs_right; lra. }
  rewrite E1, E2 in A. unfold pt1, prof in A. destruct (Rleb_spec ((1 + dl / 2 - 0) * (1 + dl / 2 - 0)) 1) as [L|L]; [nra|]. destruct (Rleb_spec ((1 - 0) * (1 - 0)) 1) as [L'|L']; [|lra].
  revert A. replace (0 / dist_norm Box 1 - 1 / dist_norm Box 1) with (- / dist_norm Box 1) by (field; lra). rewrite Rabs_Ropp, Rabs_right; [lra|]. left. apply Rinv_0_lt_compat, Hn.
Qed.
Theorem boundary_refuted : forall d, exists K f x, built_kde 1 [pt1 0] [1] d ident None K /\ kde_density K false 1 (Some [Some (Some 0, None)]) PNone = Ok f /\ ~ continuous_at 1 f x.
Proof.
  intros d. set (K := kx 0 d). assert (HB : built_kde 1 [pt1 0] [1] d ident None K) by apply kx_built.
  destruct (kernel_density_plain d 1 ident [pt1 0] None (ident_sym 1) (ident_posdef 1)) as (N & W & HN & HW & HsN & HI & _ & Hk); [discriminate|].
  assert (Hn : 0 < dist_norm d 1) by (apply dist_norm_pos; lia). set (m := mirror 0 0 [(pt1 0, 1)]).
  assert (Hf : kde_density K false 1 (Some [Some (Some 0, None)]) PNone = Ok (fun x => reflect_loop (fun wd => eval_numba 1 W (prof d) wd x) [(pt1 0, 1)] x 0 [Some (Some 0, None)] (eval_numba 1 W (prof d) [(pt1 0, 1)] x) / (sqrt (Rabs (mdet 1 ident)) * dist_norm d 1))).
  { unfold kde_density, K, kx. cbn [resolve_params bind kd_data kd_ndim kd_reflect kd_kernel kd_weights length Nat.eqb negb]. unfold kernel_density. cbn [k_ndim k_matrix k_dist bind fst snd Nat.eqb negb length]. rewrite HN, HW. reflexivity. }
  match type of Hf with _ = Ok ?g => set (f := g) in Hf end.
  assert (E0 : f (pt1 0) = 2 / dist_norm d 1).
  { unfold f. cbn [reflect_loop fst snd opt_term mirror map]. assert (Eo : outside (Some 0, None) (pt1 0 0%nat) = false) by (apply between_outside; split; cbn; [intros ? [= <-]; unfold pt1; lra|discriminate]).
    rewrite Eo, mdet_ident, Rabs_R1, sqrt_1, Rmult_1_l. unfold eval_numba, sumf. cbn [map lsum fold_right fst snd]. rewrite !(ident_white 1 N W _ _ HN HW). unfold norm2, psub, pt1, mirror_pt. cbn [rsum Nat.eqb].
    replace (0 + (0 - 0) * (0 - 0)) with 0 by ring. replace (0 + (0 - (2 * 0 - 0)) * (0 - (2 * 0 - 0))) with 0 by ring.
    assert (P0 : prof d 0 = 1). { unfold prof. destruct d; [replace (- 0 / 2) with 0 by field; apply exp_0|destruct (Rleb_spec 0 1); lra|rewrite Rmax_left; lra|rewrite Rmax_left; lra]. }
    rewrite P0. field. lra. }
  exists K, f, (pt1 0). split; [exact HB|]. split; [exact Hf|]. intros C. destruct (C (/ dist_norm d 1)) as (dl & D & F); [apply Rinv_0_lt_compat, Hn|].
  assert (A : Rabs (f (pt1 (- (dl / 2))) - f (pt1 0)) < / dist_norm d 1). { apply F; [exact I|]. intros i Hi. unfold pt1. replace (- (dl / 2) - 0) with (- (dl / 2)) by ring. rewrite Rabs_Ropp, Rabs_right; lra. }
  assert (E1 : f (pt1 (- (dl / 2))) = 0).
  { unfold f. cbn [reflect_loop]. assert (Eo : outside (Some 0, None) (pt1 (- (dl / 2)) 0%nat) = true) by (unfold outside; cbn [fst snd]; unfold pt1; destruct (Rltb_spec (- (dl / 2)) 0); [reflexivity|lra]).
    rewrite Eo. unfold Rdiv. ring. }
  rewrite E0, E1 in A. revert A. replace (0 - 2 / dist_norm d 1) with (- (2 * / dist_norm d 1)) by (field; lra). rewrite Rabs_Ropp. assert (0 < / dist_norm d 1) by (apply Rinv_0_lt_compat, Hn). rewrite Rabs_right; lra.
Qed.

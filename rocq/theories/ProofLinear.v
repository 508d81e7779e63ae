(** C130: linear changes of the parameters. *)
From Coq Require Import Permutation FunctionalExtensionality String.
From Verif Require Import Base ModelLinAlg SpecLinAlg ProofLinAlg ModelKernels SpecKernels ProofKernels ModelKDE SpecKDE SpecLinear ProofDensity ProofAffine
  ProofMarginal ProofKDE ProofTop.
Open Scope R_scope.
Notation length := List.length.

(* ------------------------------------------------------------ products *)
Definition mm (n : nat) (A B : mat) : mat := fun i j => rsum n (fun k => A i k * B k j).
Definition tr (A : mat) : mat := fun i j => A j i.
Definition conj (n : nat) (A B : mat) : mat := mm n (tr A) (mm n B A).
Lemma mm_assoc n A B C i j : mm n (mm n A B) C i j = mm n A (mm n B C) i j.
Proof.
  unfold mm. transitivity (rsum n (fun k => rsum n (fun l => A i l * B l k * C k j))).
  - apply rsum_ext. intros k Hk. rewrite <- rsum_scal_r. reflexivity.
  - rewrite rsum_swap. apply rsum_ext. intros l Hl. rewrite <- rsum_scal. apply rsum_ext. intros k Hk. ring.
Qed.
Lemma mm_ext n A A' B B' : agree n A A' -> agree n B B' -> agree n (mm n A B) (mm n A' B').
Proof. intros HA HB i j Hi Hj. unfold mm. apply rsum_ext. intros k Hk. rewrite HA, HB by assumption. reflexivity. Qed.
Lemma mm_mvec n A B (x : pt) i : mvec n (mm n A B) x i = mvec n A (mvec n B x) i.
Proof.
  unfold mvec, mm. transitivity (rsum n (fun k => rsum n (fun l => A i l * B l k * x k))).
  - apply rsum_ext. intros k Hk. rewrite <- rsum_scal_r. reflexivity.
  - rewrite rsum_swap. apply rsum_ext. intros l Hl. rewrite <- rsum_scal. apply rsum_ext. intros k Hk. ring.
Qed.
Lemma inverse_mvec n A A' (x : pt) i : is_inverse n A A' -> (i < n)%nat -> mvec n A' (mvec n A x) i = x i /\ mvec n A (mvec n A' x) i = x i.
Proof.
  intros H Hi. rewrite <- !mm_mvec. unfold mvec. split; (rewrite <- (rsum_ident_l n x i Hi); apply rsum_ext; intros k Hk; f_equal; unfold mm; apply H; assumption).
Qed.
Lemma inverse_sym n A B : is_inverse n A B -> is_inverse n B A.
Proof. intros H i j Hi Hj. destruct (H i j Hi Hj). split; assumption. Qed.
Lemma inverse_tr n A B : is_inverse n A B -> is_inverse n (tr A) (tr B).
Proof.
  intros H i j Hi Hj. destruct (H j i Hj Hi) as [H1 H2]. unfold tr. assert (E : ident i j = ident j i) by (unfold ident; rewrite Nat.eqb_sym; reflexivity). rewrite E.
  split; [rewrite <- H2|rewrite <- H1]; apply rsum_ext; intros k Hk; ring.
Qed.
Lemma inverse_mm n A A' B B' : is_inverse n A A' -> is_inverse n B B' -> is_inverse n (mm n A B) (mm n B' A').
Proof.
  assert (H1 : forall A A' B B', is_inverse n A A' -> is_inverse n B B' -> forall i j, (i < n)%nat -> (j < n)%nat -> mm n (mm n A B) (mm n B' A') i j = ident i j).
  { clear. intros A A' B B' HA HB i j Hi Hj. rewrite mm_assoc. destruct (HA i j Hi Hj) as [<- _]. unfold mm at 1. apply rsum_ext. intros k Hk. f_equal.
    rewrite <- mm_assoc. unfold mm at 1. rewrite <- (rsum_ident_l n (fun a => A' a j) k Hk). apply rsum_ext. intros l Hl. f_equal. apply HB; assumption. }
  intros HA HB i j Hi Hj. split; [apply (H1 A A' B B' HA HB i j Hi Hj)|apply (H1 B' B A' A (inverse_sym _ _ _ HB) (inverse_sym _ _ _ HA) i j Hi Hj)].
Qed.
Lemma inverse_agree n A B A' B' : agree n A A' -> agree n B B' -> is_inverse n A B -> is_inverse n A' B'.
Proof.
  intros HA HB H i j Hi Hj. destruct (H i j Hi Hj) as [<- E]. split; [|rewrite <- E]; [apply (rsum_ext n)|apply (rsum_ext n)]; intros k Hk; rewrite HA, HB by assumption; reflexivity.
Qed.
Lemma conj_inverse n A A' B B' : is_inverse n A A' -> is_inverse n B B' -> is_inverse n (conj n (tr A) B) (conj n A' B').
Proof.
  intros HA HB. unfold conj. apply inverse_agree with (mm n A (mm n B (tr A))) (mm n (mm n (tr A') B') A').
  - intros i j _ _. reflexivity.
  - intros i j _ _. apply mm_assoc.
  - apply inverse_mm; [exact HA|]. apply inverse_mm; [exact HB|apply inverse_tr, HA].
Qed.
Lemma conj_sym n A B : symmetric n B -> symmetric n (conj n A B).
Proof.
  intros H i j Hi Hj. unfold conj. rewrite <- mm_assoc. unfold mm, tr. apply rsum_ext. intros k Hk. rewrite Rmult_comm. f_equal. apply rsum_ext. intros l Hl. rewrite (H k l Hk Hl). ring.
Qed.
Lemma quad_dot n B (x : pt) : quad n B x = rsum n (fun i => x i * mvec n B x i).
Proof. unfold quad, mvec. apply rsum_ext. intros i Hi. rewrite <- rsum_scal. apply rsum_ext. intros j Hj. ring. Qed.
Lemma conj_quad n A B (x : pt) : quad n (conj n A B) x = quad n B (mvec n A x).
Proof.
  rewrite !quad_dot. transitivity (rsum n (fun i => x i * mvec n (tr A) (mvec n B (mvec n A x)) i)).
  - apply rsum_ext. intros i Hi. f_equal. unfold conj. rewrite mm_mvec. apply rsum_ext. intros k Hk. f_equal. apply mm_mvec.
  - set (y := mvec n B (mvec n A x)). unfold mvec at 1, tr.
    transitivity (rsum n (fun i => rsum n (fun j => x i * A j i * y j))); [apply rsum_ext; intros i Hi; rewrite <- rsum_scal; apply rsum_ext; intros; ring|].
    rewrite rsum_swap. apply rsum_ext. intros j Hj. unfold mvec. rewrite <- rsum_scal_r. apply rsum_ext. intros; ring.
Qed.
Lemma conj_posdef n A A' B : is_inverse n A A' -> (posdef n (conj n A B) <-> posdef n B).
Proof.
  intros HA. split; intros H v (i & Hi & Hv).
  - rewrite (quad_ext n B B v (mvec n A (mvec n A' v))); [|intros ? ? _ _; reflexivity|intros k Hk; symmetry; apply (inverse_mvec n A A' v k HA Hk)].
    rewrite <- conj_quad. apply H. apply Classical_Prop.NNPP. intros HN. apply Hv. rewrite <- (proj2 (inverse_mvec n A A' v i HA Hi)). unfold mvec at 1. apply rsum_zero_ext.
    intros k Hk. destruct (Req_dec (mvec n A' v k) 0) as [E|E]; [rewrite E; ring|]. exfalso. apply HN. exists k. auto.
  - rewrite conj_quad. apply H. apply Classical_Prop.NNPP. intros HN. apply Hv. rewrite <- (proj1 (inverse_mvec n A A' v i HA Hi)). unfold mvec at 1. apply rsum_zero_ext.
    intros k Hk. destruct (Req_dec (mvec n A v k) 0) as [E|E]; [rewrite E; ring|]. exfalso. apply HN. exists k. auto.
Qed.

(* ------------------------------------------------------------ covariance *)
Definition on_fst (g : pt -> pt) (wd : list (pt * R)) : list (pt * R) := map (fun dw => (g (fst dw), snd dw)) wd.
Lemma combine_on_fst g (data : list pt) (ws : list R) : combine (map g data) ws = on_fst g (combine data ws).
Proof. revert ws. induction data as [|x data IH]; intros [|v ws]; try reflexivity. cbn. f_equal. apply IH. Qed.
Lemma cov_fact_fst g wd : cov_fact (on_fst g wd) = cov_fact wd.
Proof. unfold cov_fact, on_fst. rewrite !sumf_map. reflexivity. Qed.
Lemma rsum_sumf_swap {X} n (h : nat -> X -> R) l : sumf (fun x => rsum n (fun k => h k x)) l = rsum n (fun k => sumf (h k) l).
Proof. symmetry. induction n as [|n IH]; cbn [rsum]; [rewrite sumf_zero; [reflexivity|reflexivity]|]. rewrite IH, <- sumf_plus. reflexivity. Qed.
Lemma cov_change n (G : mat) (t : pt) g wd C : (forall x i, (i < n)%nat -> g x i = mvec n G x i + t i) -> np_cov wd = Some C ->
  exists C', np_cov (on_fst g wd) = Some C' /\ agree n C' (conj n (tr G) C).
Proof.
  intros Hg. unfold np_cov. rewrite cov_fact_fst. destruct (Rleb_spec (cov_fact wd) 0) as [H|H]; [discriminate|]. intros E. injection E as <-. eexists. split; [reflexivity|].
  assert (HS : sumf (snd (B := R)) wd <> 0).
  { intros E. apply H. unfold cov_fact. rewrite E. unfold Rdiv. rewrite Rinv_0. lra. }
  assert (HM : forall i, (i < n)%nat -> wmean (on_fst g wd) i = mvec n G (wmean wd) i + t i).
  { intros i Hi. unfold wmean at 1. unfold on_fst. rewrite !sumf_map. cbn [fst snd].
    change (sumf (fun x : pt * R => snd x) wd) with (sumf (snd (B := R)) wd). apply Rmult_eq_reg_r with (sumf (snd (B := R)) wd); [|exact HS]. unfold Rdiv. rewrite Rmult_assoc, Rinv_l, Rmult_1_r by exact HS.
    rewrite (sumf_ext _ (fun x : pt * R => rsum n (fun k => G i k * (snd x * fst x k)) + snd x * t i)).
    2:{ intros x _. rewrite Hg by exact Hi. unfold mvec. rewrite Rmult_plus_distr_l. f_equal. rewrite <- rsum_scal. apply rsum_ext. intros; ring. }
    rewrite sumf_plus, sumf_scal_r, rsum_sumf_swap, Rmult_plus_distr_r. f_equal; [|ring]. unfold mvec. rewrite <- rsum_scal_r. apply rsum_ext. intros k Hk.
    rewrite sumf_scal. unfold wmean. field. exact HS. }
  set (m' := wmean (on_fst g wd)) in *. intros i j Hi Hj. unfold on_fst. rewrite sumf_map. cbn [fst snd].
  rewrite (sumf_ext _ (fun x : pt * R => rsum n (fun k => rsum n (fun l => G i k * (snd x * (fst x k - wmean wd k) * (fst x l - wmean wd l)) * G j l)))).
  2:{ intros x _. rewrite !HM, !Hg by assumption.
      replace (mvec n G (fst x) i + t i - (mvec n G (wmean wd) i + t i)) with (rsum n (fun k => G i k * (fst x k - wmean wd k))).
      2:{ unfold mvec. rewrite (rsum_ext n _ (fun k => G i k * fst x k - G i k * wmean wd k)) by (intros; ring). rewrite rsum_minus. ring. }
      replace (mvec n G (fst x) j + t j - (mvec n G (wmean wd) j + t j)) with (rsum n (fun k => G j k * (fst x k - wmean wd k))).
      2:{ unfold mvec. rewrite (rsum_ext n _ (fun k => G j k * fst x k - G j k * wmean wd k)) by (intros; ring). rewrite rsum_minus. ring. }
      rewrite <- (rsum_scal n (snd x)), <- rsum_scal_r. apply rsum_ext. intros k Hk. rewrite <- rsum_scal. apply rsum_ext. intros l Hl. ring. }
  rewrite rsum_sumf_swap. unfold conj, mm, tr. unfold Rdiv at 1. rewrite <- rsum_scal_r. apply rsum_ext. intros k Hk.
  rewrite rsum_sumf_swap, <- rsum_scal_r, <- rsum_scal. apply rsum_ext. intros l Hl. rewrite sumf_scal_r, sumf_scal. unfold Rdiv. ring.
Qed.

(* ------------------------------------------------------------ density *)
Definition volume (n : nat) (G : mat) (c : R) : Prop := forall M, symmetric n M -> posdef n M -> mdet n (conj n (tr G) M) = c * c * mdet n M.

Lemma density_change n G H t g c d M M' (data : list pt) ws : is_inverse n G H -> (forall x i, (i < n)%nat -> g x i = mvec n G x i + t i) -> 0 < c -> volume n G c ->
  symmetric n M -> agree n M' (conj n (tr G) M) -> length ws = length data ->
  res_rel (fun f f' : pt -> R => forall x, f' (g x) * c = f x)
    (kernel_density (mkKernel d n M) n n data (Some ws) None None) (kernel_density (mkKernel d n M') n n (map g data) (Some ws) None None).
Proof.
  intros HG Hg Hc HV Hs HM Hl.
  assert (Hs' : symmetric n M') by (apply sym_of_agree with (conj n (tr G) M); [intros i j Hi Hj; symmetry; apply HM; assumption|apply conj_sym, Hs]).
  assert (HP : posdef n M' <-> posdef n M).
  { rewrite <- (conj_posdef n (tr G) (tr H) M (inverse_tr _ _ _ HG)). unfold posdef. split; intros P v Hv; specialize (P v Hv);
    [rewrite <- (quad_ext n M' _ v v HM) by reflexivity|rewrite (quad_ext n M' _ v v HM) by reflexivity]; exact P. }
  destruct (Classical_Prop.classic (posdef n M)) as [Hp|Hp].
  2:{ rewrite (density_not_posdef d n M data ws None Hs Hp Hl), (density_not_posdef d n M' (map g data) ws None Hs' ltac:(tauto)) by (rewrite map_length; exact Hl). reflexivity. }
  destruct (kernel_density_plain d n M data (Some ws) Hs Hp) as (N & W & _ & HW & HNs & HN & _ & ->). { intros w E. injection E as <-. exact Hl. }
  destruct (kernel_density_plain d n M' (map g data) (Some ws) Hs' ltac:(tauto)) as (N' & W' & _ & HW' & HNs' & HN' & _ & ->). { intros w E. injection E as <-. rewrite map_length. exact Hl. }
  cbn [res_rel]. intros x. cbv beta iota. rewrite (eval_numba_spec d n N W) by assumption. rewrite (eval_numba_spec d n N' W') by assumption.
  assert (HA : agree n N' (conj n H N)).
  { apply (inverse_unique n M'); [exact HN'|]. apply inverse_agree with (conj n (tr G) M) (conj n H N); [intros i j Hi Hj; symmetry; apply HM; assumption|intros i j _ _; reflexivity|].
    apply conj_inverse; assumption. }
  assert (ES : spec_sum d n N' (combine (map g data) ws) (g x) = spec_sum d n N (combine data ws) x).
  { rewrite combine_on_fst. unfold spec_sum, on_fst. rewrite sumf_map. apply sumf_ext. intros [p v] _. cbn [fst snd]. f_equal. f_equal.
    rewrite (quad_ext n N' (conj n H N) _ _ HA (fun i _ => eq_refl)), conj_quad. apply quad_ext; [intros i j _ _; reflexivity|]. intros i Hi.
    rewrite <- (proj1 (inverse_mvec n G H (psub x p) i HG Hi)). unfold mvec at 1. unfold mvec at 1. apply rsum_ext. intros k Hk. f_equal.
    unfold psub. rewrite !Hg by exact Hk. unfold mvec. rewrite (rsum_ext n (fun j => G k j * (x j - p j)) (fun j => G k j * x j - G k j * p j)) by (intros; ring). rewrite rsum_minus. ring. }
  match goal with |- ?a / _ * _ = _ => change a with (spec_sum d n N' (combine (map g data) ws) (g x)) end.
  rewrite ES. pose proof (mdet_posdef n M Hs Hp) as HD.
  assert (ED : mdet n M' = c * c * mdet n M) by (rewrite (mdet_ext _ _ _ HM); apply HV; assumption).
  assert (0 < c * c) by (apply Rmult_lt_0_compat; exact Hc).
  assert (Eq : sqrt (Rabs (mdet n M')) = c * sqrt (Rabs (mdet n M))).
  { rewrite ED. rewrite Rabs_mult, (Rabs_pos_eq (c * c)), sqrt_mult_alt, sqrt_square by lra. reflexivity. }
  rewrite Eq. pose proof (sqrt_mdet_pos n M Hs Hp) as Hq. set (q := sqrt (Rabs (mdet n M))) in *. set (v := dist_norm d n). set (s := spec_sum _ _ _ _ _).
  unfold Rdiv. rewrite Rmult_assoc, !Rinv_mult. replace (/ c * / q * / v * c) with (/ q * / v * (/ c * c)) by ring. rewrite Rinv_l by lra. ring.
Qed.

Lemma one_bandwidth_const neff n b resc bw : one_bandwidth b -> set_bandwidth neff n false b resc = Ok bw -> exists r, bw = fun _ _ => r.
Proof.
  intros [->|[a ->]] H; unfold set_bandwidth in H.
  - cbn [compute_bandwidth bind String.eqb Ascii.eqb Bool.eqb] in H. destruct resc; injection H as <-; eexists; reflexivity.
  - destruct (compute_bandwidth neff n a) as [r|]; [|discriminate]. cbn [bind] in H. destruct resc; injection H as <-; eexists; reflexivity.
Qed.

Lemma kde_change n G H t g c data w b resc d neffa (prob : bool) : is_inverse n G H -> (forall x i, (i < n)%nat -> g x i = mvec n G x i + t i) -> 0 < c -> volume n G c ->
  one_bandwidth b ->
  res_rel (fun f f' : pt -> R => forall x, f' (g x) * c = f x)
    (do K <- kde_init n data w b false resc d None neffa None ;; kde_density K prob n None PNone)
    (do K <- kde_init n (map g data) w b false resc d None neffa None ;; kde_density K prob n None PNone).
Proof.
  intros HG Hg Hc HV Hb. unfold kde_init. rewrite map_length. destruct (Nat.eqb (length data) 0); [reflexivity|].
  destruct (check_weights (length data) w) as [ow|] eqn:Ew; [|reflexivity]. cbn [bind].
  set (neff := match neffa with Some x => x | None => _ end). destruct (set_bandwidth neff n false b resc) as [bw|] eqn:Eb; [|reflexivity]. cbn [bind].
  destruct (one_bandwidth_const _ _ _ _ _ Hb Eb) as [r ->].
  assert (Ewl : wlist (map g data) ow = wlist data ow) by (unfold wlist; destruct ow; [reflexivity|rewrite map_map; reflexivity]).
  assert (Hl : length (wlist data ow) = length data).
  { pose proof (check_weights_pos _ _ _ Ew) as H1. destruct ow as [l|]; cbn [wlist]; [apply H1|apply map_length]. }
  unfold wdata_of. rewrite Ewl, combine_on_fst.
  destruct (np_cov (combine data (wlist data ow))) as [C|] eqn:EC.
  - destruct (cov_change n G t g _ C Hg EC) as (C' & -> & HC). unfold kernel_init.
    set (M := kernel_matrix C (fun _ _ => r)). set (M' := kernel_matrix C' (fun _ _ => r)).
    assert (HMs : symmetric n M). { intros i j Hi Hj. unfold M, kernel_matrix. rewrite (np_cov_sym n _ _ EC i j Hi Hj). reflexivity. }
    assert (HM : agree n M' (conj n (tr G) M)).
    { intros i j Hi Hj. unfold M', M, kernel_matrix. rewrite HC by assumption. unfold conj, mm, tr. rewrite <- rsum_scal_r. apply rsum_ext. intros k Hk.
      rewrite Rmult_assoc, <- rsum_scal_r. f_equal. apply rsum_ext. intros l Hl'. ring. }
    pose proof (density_change n G H t g c d M M' data (wlist data ow) HG Hg Hc HV HMs HM Hl) as HD.
    unfold kde_density, resolve_params. cbn [bind kd_kernel kd_reflect kd_ndim kd_data kd_weights].
    rewrite (kernel_density_wlist _ n n data ow), (kernel_density_wlist _ n n (map g data) ow), Ewl.
    destruct (kernel_density (mkKernel d n M) n n data _ None None) as [f|e], (kernel_density (mkKernel d n M') n n (map g data) _ None None) as [f'|e'];
      cbn [res_rel bind] in *; try contradiction; [|exact HD]. intros x. rewrite map_length. destruct prob; [|apply HD]. rewrite <- (HD x). unfold Rdiv. ring.
  - assert (E' : np_cov (on_fst g (combine data (wlist data ow))) = None).
    { unfold np_cov in *. rewrite cov_fact_fst. destruct (Rleb (cov_fact (combine data (wlist data ow))) 0); [reflexivity|discriminate]. }
    rewrite E'. reflexivity.
Qed.

(* ------------------------------------------------------------ elementary changes *)
Lemma conj_entry n G M i j : conj n (tr G) M i j = rsum n (fun k => G i k * rsum n (fun l => M k l * G j l)).
Proof. reflexivity. Qed.
(** Identity. *)
Lemma shift_case n : is_inverse n ident ident /\ (forall (x : pt) i, (i < n)%nat -> mvec n ident x i = x i) /\ volume n ident 1.
Proof.
  split; [apply ident_inverse|]. split; [intros x i Hi; apply rsum_ident_l, Hi|].
  intros M _ _. rewrite Rmult_1_l, Rmult_1_l. apply mdet_ext. intros i j Hi Hj. rewrite conj_entry, rsum_ident_l by exact Hi.
  rewrite <- (rsum_ident_l n (fun l => M i l) j Hj). apply rsum_ext. intros; ring.
Qed.
(** Multiplication of one parameter. *)
Definition scale_at (k : nat) (r : R) (i : nat) : R := if Nat.eqb i k then r else 1.
Definition scale_mat (k : nat) (r : R) : mat := fun i j => ident i j * scale_at k r i.
Lemma schur_scale_ne c m M : (forall i, c i <> 0) -> schur m (mscale c M) = mscale c (schur m M).
Proof.
  intros Hc. extensionality i. extensionality j. unfold schur, mscale. pose proof (Hc m). destruct (Req_EM_T (M m m) 0) as [E|E].
  - rewrite E, Rmult_0_r. unfold Rdiv. rewrite !Rinv_0. ring.
  - field. split; assumption.
Qed.
Lemma mdet_scale_ne c n M : (forall i, c i <> 0) -> mdet n (mscale c M) = rprod n c * rprod n c * mdet n M.
Proof.
  intros Hc. revert M. induction n as [|n IH]; intros M; cbn [mdet rprod]; [ring|]. rewrite schur_scale_ne, IH by assumption. unfold mscale at 1. ring.
Qed.
Lemma rprod_scale_at n k r : rprod n (scale_at k r) = if Nat.ltb k n then r else 1.
Proof.
  induction n as [|n IH]; cbn [rprod]; [reflexivity|]. rewrite IH. unfold scale_at. destruct (Nat.ltb_spec k n), (Nat.ltb_spec k (S n)), (Nat.eqb_spec n k); try lia; ring.
Qed.
Lemma scale_case n k r : (k < n)%nat -> r <> 0 ->
  is_inverse n (scale_mat k r) (scale_mat k (/ r)) /\ (forall (x : pt) i, (i < n)%nat -> mvec n (scale_mat k r) x i = if Nat.eqb i k then r * x i else x i)
  /\ volume n (scale_mat k r) (Rabs r).
Proof.
  intros Hk Hr. assert (EV : forall r' (f : nat -> R) i, (i < n)%nat -> rsum n (fun j => scale_mat k r' i j * f j) = scale_at k r' i * f i).
  { intros r' f i Hi. rewrite (rsum_ext n _ (fun j => ident i j * (scale_at k r' i * f j))) by (intros; unfold scale_mat; ring). apply (rsum_ident_l n (fun j => scale_at k r' i * f j)), Hi. }
  split; [|split].
  - assert (ES : forall i, scale_at k r i * scale_at k (/ r) i = 1) by (intros i; unfold scale_at; destruct (Nat.eqb i k); [field; exact Hr|ring]).
    assert (EI : forall r' i j, scale_mat k r' i j = ident i j * scale_at k r' j).
    { intros r' i j. unfold scale_mat, ident. destruct (Nat.eqb_spec i j) as [->|]; [reflexivity|ring]. }
    intros i j Hi Hj. rewrite !EV by exact Hi. unfold scale_mat. split.
    + transitivity (ident i j * (scale_at k r i * scale_at k (/ r) i)); [ring|rewrite ES; ring].
    + transitivity (ident i j * (scale_at k r i * scale_at k (/ r) i)); [ring|rewrite ES; ring].
  - intros x i Hi. unfold mvec. rewrite EV by exact Hi. unfold scale_at. destruct (Nat.eqb i k); ring.
  - intros M _ _. rewrite (mdet_ext n _ (mscale (scale_at k r) M)).
    + rewrite mdet_scale_ne by (intros i; unfold scale_at; destruct (Nat.eqb i k); lra). rewrite rprod_scale_at, (proj2 (Nat.ltb_lt k n) Hk). f_equal.
      destruct (Rcase_abs r) as [Hneg|Hpos]; [rewrite Rabs_left by exact Hneg; ring|rewrite Rabs_pos_eq by lra; ring].
    + intros i j Hi Hj. rewrite conj_entry, EV by exact Hi. unfold mscale.
      rewrite (rsum_ext n _ (fun l => scale_mat k r j l * M i l)) by (intros; ring). rewrite EV by exact Hj. ring.
Qed.
(** Addition of a multiple of one parameter to another. *)
Definition shear_mat (k l : nat) (r : R) : mat := fun i j => ident i j + (if Nat.eqb i k then if Nat.eqb j l then r else 0 else 0).
Lemma ldet_ext l : forall M M', (forall i j, In i l -> In j l -> M i j = M' i j) -> ldet l M = ldet l M'.
Proof.
  induction l as [|x l IH]; intros M M' H; cbn [ldet]; [reflexivity|]. rewrite (H x x) by (left; reflexivity). f_equal. apply IH.
  intros i j Hi Hj. unfold schurx. rewrite !H by (cbn; auto). reflexivity.
Qed.
Lemma mdet_from n M l rest : symmetric n M -> posdef n M -> Permutation (l :: rest) (seq 0 n) -> mdet n M = M l l * ldet rest (schurx l M).
Proof.
  intros Hs Hp HP. rewrite <- (mdet_submat n (rev (l :: rest)) M Hs Hp) by (rewrite <- Permutation_rev; exact HP).
  pose proof (Permutation_length HP) as Hl. rewrite seq_length in Hl. rewrite <- Hl, <- rev_length, mdet_ldet, rev_involutive. reflexivity.
Qed.
Lemma shear_case n k l r : (k < n)%nat -> (l < n)%nat -> k <> l ->
  is_inverse n (shear_mat k l r) (shear_mat k l (- r)) /\ (forall (x : pt) i, (i < n)%nat -> mvec n (shear_mat k l r) x i = if Nat.eqb i k then x k + r * x l else x i)
  /\ volume n (shear_mat k l r) 1.
Proof.
  intros Hk Hl Hne. assert (EV : forall r' (f : nat -> R) i, (i < n)%nat -> rsum n (fun j => shear_mat k l r' i j * f j) = f i + if Nat.eqb i k then r' * f l else 0).
  { intros r' f i Hi. rewrite (rsum_ext n _ (fun j => ident i j * f j + (if Nat.eqb j l then (if Nat.eqb i k then r' * f j else 0) else 0))).
    2:{ intros j Hj. unfold shear_mat. destruct (Nat.eqb i k), (Nat.eqb j l); ring. }
    rewrite rsum_plus, rsum_ident_l by exact Hi. rewrite (rsum_delta n (fun j => if Nat.eqb i k then r' * f j else 0) l Hl). reflexivity. }
  split; [|split].
  - intros i j Hi Hj. rewrite !EV by exact Hi. unfold shear_mat. rewrite (proj2 (Nat.eqb_neq l k)) by auto. 
    destruct (Nat.eqb_spec i k) as [->|Hik]; [|split; ring]. assert (EI : ident l j = if Nat.eqb j l then 1 else 0) by (unfold ident; rewrite Nat.eqb_sym; reflexivity).
    rewrite EI. destruct (Nat.eqb j l); split; ring.
  - intros x i Hi. unfold mvec. rewrite EV by exact Hi. destruct (Nat.eqb_spec i k) as [->|]; [reflexivity|ring].
  - intros M Hs Hp. set (M' := conj n (tr (shear_mat k l r)) M).
    assert (EM : forall i j, (i < n)%nat -> (j < n)%nat -> M' i j = M i j + (if Nat.eqb i k then r * M l j else 0) + (if Nat.eqb j k then r * M i l else 0)
      + (if Nat.eqb i k then if Nat.eqb j k then r * (r * M l l) else 0 else 0)).
    { intros i j Hi Hj. unfold M'. rewrite conj_entry.
      assert (EH : forall a, (a < n)%nat -> rsum n (fun b => M a b * shear_mat k l r j b) = M a j + (if Nat.eqb j k then r * M a l else 0)).
      { intros a Ha. rewrite (rsum_ext n _ (fun b => shear_mat k l r j b * M a b)) by (intros; ring). apply (EV r (fun b => M a b)), Hj. }
      rewrite (EV r (fun a => rsum n (fun b => M a b * shear_mat k l r j b))) by exact Hi. rewrite !EH by assumption. destruct (Nat.eqb i k), (Nat.eqb j k); ring. }
    assert (HIl : In l (seq 0 n)) by (apply in_seq; lia). destruct (in_split _ _ HIl) as (l1 & l2 & Es).
    assert (HP : Permutation (l :: l1 ++ l2) (seq 0 n)) by (rewrite Es; apply Permutation_middle).
    pose proof (good_of_posdef n M Hs Hp) as Hg. apply good_perm with (l' := l :: l1 ++ l2) in Hg; [|symmetry; exact HP]. pose proof (good_diag _ _ _ Hg) as Hd.
    assert (Hin : forall i, In i (l1 ++ l2) -> (i < n)%nat). { intros i Hi. apply (in_cons l) in Hi. apply (Permutation_in _ HP) in Hi. apply in_seq in Hi. lia. }
    assert (Hs' : symmetric n M') by (apply conj_sym, Hs).
    assert (Hinv : is_inverse n (shear_mat k l r) (shear_mat k l (- r))).
    { intros i j Hi Hj. rewrite !EV by exact Hi. unfold shear_mat. rewrite (proj2 (Nat.eqb_neq l k)) by auto. 
      destruct (Nat.eqb_spec i k) as [->|Hik]; [|split; ring]. assert (EI : ident l j = if Nat.eqb j l then 1 else 0) by (unfold ident; rewrite Nat.eqb_sym; reflexivity).
      rewrite EI. destruct (Nat.eqb j l); split; ring. }
    assert (Hp' : posdef n M') by (apply (conj_posdef n _ _ M (inverse_tr _ _ _ Hinv)), Hp).
    rewrite (mdet_from n M' l _ Hs' Hp' HP), (mdet_from n M l _ Hs Hp HP).
    assert (El : M' l l = M l l). { rewrite EM by assumption. rewrite (proj2 (Nat.eqb_neq l k)) by auto. ring. }
    rewrite El, !Rmult_1_l. f_equal. apply ldet_ext. intros i j Hi Hj. apply Hin in Hi, Hj. unfold schurx. rewrite El, !EM by assumption.
    rewrite (proj2 (Nat.eqb_neq l k)) by auto. destruct (Nat.eqb i k), (Nat.eqb j k); field; lra.
Qed.

Lemma change_pos n g c : linear_change n g c -> 0 < c.
Proof. induction 1; [lra|apply Rabs_pos_lt; assumption|lra|apply Rmult_lt_0_compat; assumption]. Qed.
Lemma res_rel_trans (g h : pt -> pt) c d (x y z : res (pt -> R)) : res_rel (fun f f' : pt -> R => forall p, f' (g p) * c = f p) x y ->
  res_rel (fun f f' : pt -> R => forall p, f' (h p) * d = f p) y z -> res_rel (fun f f' : pt -> R => forall p, f' (h (g p)) * (c * d) = f p) x z.
Proof.
  destruct x as [f|e], y as [f'|e'], z as [f''|e'']; cbn [res_rel]; try contradiction; [|congruence]. intros H1 H2 p. rewrite <- H1, <- H2. ring.
Qed.
Theorem linear_change_density : forall n g c, linear_change n g c -> forall data w b resc d neffa (prob : bool), one_bandwidth b ->
  res_rel (fun f f' : pt -> R => forall x, f' (g x) * c = f x)
    (do K <- kde_init n data w b false resc d None neffa None ;; kde_density K prob n None PNone)
    (do K <- kde_init n (map g data) w b false resc d None neffa None ;; kde_density K prob n None PNone).
Proof.
  intros n g c H. induction H as [t|k r Hk Hr|k l r Hk Hl Hne|g h c d' H1 IH1 H2 IH2]; intros data w b resc d neffa prob Hb.
  - destruct (shift_case n) as (A & B & C). apply (kde_change n ident ident t _ 1); try assumption; [|lra]. intros x i Hi. rewrite B by exact Hi. reflexivity.
  - destruct (scale_case n k r Hk Hr) as (A & B & C). apply (kde_change n (scale_mat k r) (scale_mat k (/ r)) (fun _ => 0)); try assumption; [|apply Rabs_pos_lt, Hr]. intros x i Hi. rewrite B by exact Hi. ring.
  - destruct (shear_case n k l r Hk Hl Hne) as (A & B & C). apply (kde_change n (shear_mat k l r) (shear_mat k l (- r)) (fun _ => 0)); try assumption; [|lra]. intros x i Hi. rewrite B by exact Hi. ring.
  - rewrite <- (map_map g h). eapply res_rel_trans; [apply IH1, Hb|apply IH2, Hb].
Qed.

(* ------------------------------------------------------------ every invertible map *)
Lemma volume_agree n A B c : agree n A B -> volume n A c -> volume n B c.
Proof.
  intros H V M Hs Hp. rewrite <- (V M Hs Hp). apply mdet_ext. intros i j Hi Hj. rewrite !conj_entry. apply rsum_ext. intros k Hk. rewrite (H i k) by assumption. f_equal.
  apply rsum_ext. intros l Hl. rewrite (H j l) by assumption. reflexivity.
Qed.
Lemma volume_mm n A B B' c d : is_inverse n B B' -> volume n A c -> volume n B d -> volume n (mm n A B) (c * d).
Proof.
  intros HB VA VB M Hs Hp. transitivity (mdet n (conj n (tr A) (conj n (tr B) M))).
  - apply mdet_ext. intros i j Hi Hj. rewrite !conj_entry. unfold mm. rewrite (rsum_ext n _ (fun k => rsum n (fun a => A i a * (B a k * rsum n (fun l => M k l * rsum n (fun b => A j b * B b l)))))).
    2:{ intros k Hk. rewrite <- rsum_scal_r. apply rsum_ext. intros; ring. }
    rewrite rsum_swap. apply rsum_ext. intros a Ha. rewrite rsum_scal. f_equal.
    rewrite (rsum_ext n (fun l => conj n (tr B) M a l * A j l) (fun b => rsum n (fun k => B a k * (rsum n (fun l => M k l * B b l) * A j b)))).
    2:{ intros b Hb. rewrite conj_entry, <- rsum_scal_r. apply rsum_ext. intros; ring. }
    rewrite rsum_swap. apply rsum_ext. intros k Hk. rewrite rsum_scal. f_equal.
    rewrite (rsum_ext n _ (fun l => rsum n (fun b => M k l * B b l * A j b))).
    2:{ intros l Hl. rewrite <- rsum_scal. apply rsum_ext. intros; ring. }
    rewrite rsum_swap. apply rsum_ext. intros b Hb. rewrite rsum_scal_r. reflexivity.
  - rewrite VA, VB by (try assumption; try (apply conj_sym; assumption); apply (conj_posdef n _ _ M (inverse_tr _ _ _ HB)); assumption). ring.
Qed.
Lemma volume_left n E E' e G H : is_inverse n E E' -> is_inverse n G H -> 0 < e -> volume n E' e -> (exists c, 0 < c /\ volume n (mm n E G) c) -> exists c, 0 < c /\ volume n G c.
Proof.
  intros HE HG He VE (c & Hc & V). exists (e * c). split; [apply Rmult_lt_0_compat; assumption|]. apply volume_agree with (mm n E' (mm n E G)).
  - intros i j Hi Hj. rewrite <- mm_assoc. unfold mm at 1. rewrite <- (rsum_ident_l n (fun k => G k j) i Hi). apply rsum_ext. intros k Hk. f_equal. apply HE; assumption.
  - apply volume_mm with (mm n H E'); [apply inverse_mm; assumption|assumption|assumption].
Qed.
Lemma shear_row n k l r G i j : (l < n)%nat -> (i < n)%nat -> mm n (shear_mat k l r) G i j = G i j + if Nat.eqb i k then r * G l j else 0.
Proof.
  intros Hl Hi. unfold mm. rewrite (rsum_ext n _ (fun a => ident i a * G a j + (if Nat.eqb a l then (if Nat.eqb i k then r * G a j else 0) else 0))).
  2:{ intros a Ha. unfold shear_mat. destruct (Nat.eqb i k), (Nat.eqb a l); ring. }
  rewrite rsum_plus. rewrite (rsum_ident_l n (fun a => G a j)) by exact Hi. rewrite (rsum_delta n (fun a => if Nat.eqb i k then r * G a j else 0) l Hl). reflexivity.
Qed.
Lemma scale_row n k r G i j : (i < n)%nat -> mm n (scale_mat k r) G i j = scale_at k r i * G i j.
Proof.
  intros Hi. unfold mm. rewrite (rsum_ext n _ (fun a => ident i a * (scale_at k r i * G a j))) by (intros; unfold scale_mat; ring).
  apply (rsum_ident_l n (fun a => scale_at k r i * G a j)), Hi.
Qed.
Lemma ident_ne i j : i <> j -> ident i j = 0.
Proof. intros H. unfold ident. rewrite (proj2 (Nat.eqb_neq i j) H). reflexivity. Qed.
Lemma ident_eq i : ident i i = 1.
Proof. unfold ident. rewrite Nat.eqb_refl. reflexivity. Qed.

(** The rows below [q] of column [k] are cleared one after the other. *)
Lemma clear_column n k : (k < n)%nat ->
  (forall G H, is_inverse n G H -> (forall i j, (i < n)%nat -> (j <= k)%nat -> G i j = ident i j) -> exists c, 0 < c /\ volume n G c) ->
  forall m G H, (m <= n)%nat -> is_inverse n G H -> (forall i j, (i < n)%nat -> (j < k)%nat -> G i j = ident i j) -> G k k = 1 ->
  (forall i, (i < n)%nat -> (n - m > i)%nat -> i <> k -> G i k = 0) -> exists c, 0 < c /\ volume n G c.
Proof.
  intros Hk IH. induction m as [|m IHm]; intros G H Hm HG Hcol Hkk Hz.
  - apply (IH G H HG). intros i j Hi Hj. destruct (Nat.eq_dec j k) as [->|Hne]; [|apply Hcol; lia]. destruct (Nat.eq_dec i k) as [->|Hne]; [rewrite ident_eq; exact Hkk|].
    rewrite ident_ne by exact Hne. apply Hz; [exact Hi|lia|exact Hne].
  - set (q := (n - S m)%nat). destruct (Nat.eq_dec q k) as [Eq|Hq].
    + apply (IHm G H); try assumption; [lia|]. intros i Hi Hlt Hne. apply Hz; [exact Hi| |exact Hne]. unfold q in Eq. lia.
    + assert (Hqn : (q < n)%nat) by (unfold q; lia). destruct (shear_case n q k (- G q k) Hqn Hk Hq) as (HE & _ & _).
      destruct (shear_case n q k (- - G q k) Hqn Hk Hq) as (_ & _ & VE).
      apply (volume_left n (shear_mat q k (- G q k)) (shear_mat q k (- - G q k)) 1 G H HE HG ltac:(lra) VE).
      apply (IHm _ (mm n H (shear_mat q k (- - G q k)))); [lia|apply inverse_mm; assumption| | |].
      * intros i j Hi Hj. rewrite shear_row by assumption. rewrite (Hcol k j Hk Hj), (ident_ne k j) by lia. rewrite Hcol by assumption. destruct (Nat.eqb i q); ring.
      * rewrite shear_row by assumption. rewrite (proj2 (Nat.eqb_neq k q)) by auto. lra.
      * intros i Hi Hlt Hne. rewrite shear_row by assumption. rewrite Hkk. destruct (Nat.eqb_spec i q) as [->|Hiq]; [ring|]. rewrite (Hz i Hi); [ring| |exact Hne]. unfold q in Hiq. lia.
Qed.
Theorem volume_exists n : forall G H, is_inverse n G H -> exists c, 0 < c /\ volume n G c.
Proof.
  assert (HI : forall m, (m <= n)%nat -> forall G H, is_inverse n G H -> (forall i j, (i < n)%nat -> (j < n - m)%nat -> G i j = ident i j) -> exists c, 0 < c /\ volume n G c).
  2:{ intros G H HG. apply (HI n (Nat.le_refl n) G H HG). intros i j Hi Hj. lia. }
  induction m as [|m IH]; intros Hm G H HG Hcol.
  - exists 1. split; [lra|]. apply volume_agree with ident; [|apply shift_case]. intros i j Hi Hj. symmetry. apply Hcol; lia.
  - set (k := (n - S m)%nat) in *. assert (Hk : (k < n)%nat) by (unfold k; lia).
    assert (IHk : forall G H, is_inverse n G H -> (forall i j, (i < n)%nat -> (j <= k)%nat -> G i j = ident i j) -> exists c, 0 < c /\ volume n G c).
    { intros G' H' HG' HC. apply (IH ltac:(lia) G' H' HG'). intros i j Hi Hj. apply HC; [exact Hi|unfold k; lia]. }
    clear IH.
    assert (Hone : forall G H, is_inverse n G H -> (forall i j, (i < n)%nat -> (j < k)%nat -> G i j = ident i j) -> G k k = 1 -> exists c, 0 < c /\ volume n G c).
    { intros G' H' HG' HC H1. apply (clear_column n k Hk IHk n G' H' (Nat.le_refl n) HG' HC H1). intros i Hi Hlt. lia. }
    assert (Hnz : forall G H, is_inverse n G H -> (forall i j, (i < n)%nat -> (j < k)%nat -> G i j = ident i j) -> G k k <> 0 -> exists c, 0 < c /\ volume n G c).
    { intros G' H' HG' HC Hn. destruct (scale_case n k (/ G' k k) Hk (Rinv_neq_0_compat _ Hn)) as (HE & _ & _). destruct (scale_case n k (/ / G' k k) Hk) as (_ & _ & VE); [apply Rinv_neq_0_compat, Rinv_neq_0_compat, Hn|].
      apply (volume_left n (scale_mat k (/ G' k k)) (scale_mat k (/ / G' k k)) (Rabs (/ / G' k k)) G' H' HE HG'); [apply Rabs_pos_lt, Rinv_neq_0_compat, Rinv_neq_0_compat, Hn|exact VE|].
      apply (Hone _ (mm n H' (scale_mat k (/ / G' k k)))); [apply inverse_mm; assumption| |].
      - intros i j Hi Hj. rewrite scale_row by exact Hi. unfold scale_at. destruct (Nat.eqb_spec i k) as [->|]; [|rewrite HC by assumption; ring]. rewrite (HC k j Hi Hj), ident_ne by lia. ring.
      - rewrite scale_row by exact Hk. unfold scale_at. rewrite Nat.eqb_refl. apply Rinv_l, Hn. }
    destruct (Req_dec (G k k) 0) as [E0|E0]; [|apply (Hnz G H HG Hcol E0)].
    assert (Hex : exists p, (k < p < n)%nat /\ G p k <> 0).
    { apply Classical_Prop.NNPP. intros HN. assert (Hz : forall i, (k <= i < n)%nat -> G i k = 0).
      { intros i Hi. destruct (Nat.eq_dec i k) as [->|Hne]; [exact E0|]. apply Classical_Prop.NNPP. intros Hi0. apply HN. exists i. split; [lia|exact Hi0]. }
      set (v := fun j => if Nat.eqb j k then 1 else if Nat.ltb j k then - G j k else 0).
      assert (HV : forall i, (i < n)%nat -> mvec n G v i = 0).
      { intros i Hi. unfold mvec. rewrite (rsum_ext n _ (fun j => (if Nat.eqb j k then G i k else 0) + (if Nat.eqb j i then (if Nat.ltb i k then - G i k else 0) else 0))).
        - rewrite rsum_plus, (rsum_delta n (fun _ => G i k) k Hk), (rsum_delta n (fun _ => if Nat.ltb i k then - G i k else 0) i Hi).
          destruct (Nat.ltb_spec i k); [ring|]. rewrite Hz by lia. ring.
        - intros j Hj. unfold v. destruct (Nat.eqb_spec j k) as [->|Hjk].
          + destruct (Nat.eqb_spec k i) as [->|]; [rewrite Nat.ltb_irrefl|]; ring.
          + destruct (Nat.ltb_spec j k).
            * rewrite Hcol by lia. destruct (Nat.eqb_spec j i) as [->|]; [rewrite ident_eq, (proj2 (Nat.ltb_lt i k)) by lia; ring|rewrite ident_ne by auto; ring].
            * destruct (Nat.eqb_spec j i) as [->|]; [destruct (Nat.ltb_spec i k); [lia|ring]|ring]. }
      assert (Hv : v k = 0).
      { rewrite <- (proj1 (inverse_mvec n G H v k HG Hk)). unfold mvec at 1. apply rsum_zero_ext. intros j Hj. rewrite HV by exact Hj. ring. }
      unfold v in Hv. rewrite Nat.eqb_refl in Hv. lra. }
    destruct Hex as (p & Hp & Hp0). destruct (shear_case n k p 1 Hk ltac:(lia) ltac:(lia)) as (HE & _ & _). destruct (shear_case n k p (- (1)) Hk ltac:(lia) ltac:(lia)) as (_ & _ & VE).
    apply (volume_left n (shear_mat k p 1) (shear_mat k p (- (1))) 1 G H HE HG ltac:(lra) VE).
    apply (Hnz _ (mm n H (shear_mat k p (- (1))))); [apply inverse_mm; assumption| |].
    + intros i j Hi Hj. rewrite shear_row by lia. rewrite (Hcol p j), (ident_ne p j) by lia. rewrite Hcol by assumption. destruct (Nat.eqb i k); ring.
    + rewrite shear_row by lia. rewrite Nat.eqb_refl. lra.
Qed.
Theorem any_linear : forall n G H t, is_inverse n G H -> exists c, 0 < c /\ forall (g : pt -> pt), (forall x i, (i < n)%nat -> g x i = rsum n (fun j => G i j * x j) + t i) ->
  forall data w b resc d neffa (prob : bool), one_bandwidth b ->
  res_rel (fun f f' : pt -> R => forall x, f' (g x) * c = f x)
    (do K <- kde_init n data w b false resc d None neffa None ;; kde_density K prob n None PNone)
    (do K <- kde_init n (map g data) w b false resc d None neffa None ;; kde_density K prob n None PNone).
Proof.
  intros n G H t HG. destruct (volume_exists n G H HG) as (c & Hc & V). exists c. split; [exact Hc|]. intros g Hg data w b resc d neffa prob Hb.
  apply (kde_change n G H t g c); assumption.
Qed.

(* ------------------------------------------------------------ rotations, exchanges *)
Lemma change_ext n g h c : linear_change n g c -> (forall x i, g x i = h x i) -> linear_change n h c.
Proof. intros H E. replace h with g; [exact H|]. extensionality x. extensionality i. apply E. Qed.
Lemma change_mul n g h c d : linear_change n g c -> linear_change n h d -> forall e, e = c * d -> linear_change n (fun x => h (g x)) e.
Proof. intros H1 H2 e ->. apply lc_then; assumption. Qed.
Definition scale_fn (k : nat) (r : R) (x : pt) : pt := fun i => if Nat.eqb i k then r * x i else x i.
Definition shear_fn (k l : nat) (r : R) (x : pt) : pt := fun i => if Nat.eqb i k then x k + r * x l else x i.
Lemma rotation_change n a b : (2 <= n)%nat -> a * a + b * b = 1 -> linear_change n (rotation a b) 1.
Proof.
  intros Hn H. destruct (Req_dec b 0) as [->|Hb].
  - assert (Ha : a <> 0) by (intros ->; lra). assert (Ea : Rabs a * Rabs a = 1) by (rewrite <- Rabs_mult; rewrite Rabs_pos_eq; lra).
    apply change_ext with (fun x => scale_fn 1 a (scale_fn 0 a x)).
    + apply (change_mul n (scale_fn 0 a) (scale_fn 1 a) (Rabs a) (Rabs a)); [apply (lc_scale n 0 a); [lia|exact Ha]|apply (lc_scale n 1 a); [lia|exact Ha]|symmetry; exact Ea].
    + intros x [|[|i]]; cbn; ring.
  - set (t := (a - 1) / b).
    apply change_ext with (fun x => shear_fn 0 1 t ((fun y => shear_fn 1 0 b (shear_fn 0 1 t y)) x)).
    + apply (change_mul n (fun y => shear_fn 1 0 b (shear_fn 0 1 t y)) (shear_fn 0 1 t) 1 1); [|apply (lc_shear n 0 1 t); lia|ring].
      apply (change_mul n (shear_fn 0 1 t) (shear_fn 1 0 b) 1 1); [apply (lc_shear n 0 1 t); lia|apply (lc_shear n 1 0 b); lia|ring].
    + assert (E1 : t * b = a - 1) by (unfold t; field; exact Hb). assert (E2 : t * (1 + a) = - b).
      { unfold t. apply Rmult_eq_reg_r with b; [|exact Hb]. transitivity ((a - 1) * (1 + a)); [field; exact Hb|]. lra. }
      intros x [|[|i]]; cbn; [| |reflexivity].
      * transitivity ((1 + t * b) * x 0%nat + (t * (1 + (1 + t * b))) * x 1%nat); [ring|]. rewrite E1. replace (1 + (1 + (a - 1))) with (1 + a) by ring. rewrite E2. ring.
      * transitivity (b * x 0%nat + (1 + t * b) * x 1%nat); [ring|]. rewrite E1. ring.
Qed.
Lemma exchange_change n k l : (k < n)%nat -> (l < n)%nat -> k <> l -> linear_change n (exchange k l) 1.
Proof.
  intros Hk Hl Hne. set (s1 := shear_fn k l (- (1))). set (s2 := shear_fn l k 1). set (s3 := fun y => s2 (s1 y)). set (s4 := fun y => s1 (s3 y)).
  apply change_ext with (fun x => scale_fn k (- (1)) (s4 x)).
  - apply (change_mul n s4 (scale_fn k (- (1))) 1 (Rabs (- (1)))); [|apply (lc_scale n k (- (1))); [lia|lra]|rewrite Rabs_Ropp, Rabs_R1; ring].
    apply (change_mul n s3 s1 1 1); [|apply (lc_shear n k l (- (1))); auto|ring]. apply (change_mul n s1 s2 1 1); [apply (lc_shear n k l (- (1))); auto|apply (lc_shear n l k 1); auto|ring].
  - intros x i. unfold exchange, s4, s3, s2, s1, scale_fn, shear_fn. rewrite !Nat.eqb_refl. rewrite (proj2 (Nat.eqb_neq k l)), (proj2 (Nat.eqb_neq l k)) by auto.
    destruct (Nat.eqb_spec i k) as [->|]; [ring|]. destruct (Nat.eqb_spec i l) as [->|]; ring.
Qed.

(* ------------------------------------------------------------ diagonal=True *)
Definition dg_data : list pt := [(fun _ => 0); (fun _ => 1)].
Definition dg_map (x : pt) : pt := fun i => if Nat.eqb i 0 then x 0%nat + 1 * x 1%nat else x i.
Lemma two_cov (p q : pt) : np_cov (combine [p; q] [1; 1]) = Some (fun i j => sumf (fun dw : pt * R => snd dw * (fst dw i - wmean (combine [p; q] [1; 1]) i) * (fst dw j - wmean (combine [p; q] [1; 1]) j)) (combine [p; q] [1; 1]) / 1).
Proof.
  assert (E : cov_fact (combine [p; q] [1; 1]) = 1) by (unfold cov_fact, sumf; cbn; field). unfold np_cov. rewrite E. destruct (Rleb_spec 1 0); [lra|reflexivity].
Qed.
Lemma diag_run (p q : pt) (s0 s1 : R) M : (forall i j, (i < 2)%nat -> (j < 2)%nat -> M i j = if Nat.eqb i j then (if Nat.eqb i 0 then s0 * s0 else s1 * s1) else 0) -> 0 < s0 -> 0 < s1 ->
  exists N, is_inverse 2 M N /\ symmetric 2 M /\ posdef 2 M /\ sqrt (Rabs (mdet 2 M)) = s0 * s1
  /\ forall x, quad 2 N x = (x 0%nat / s0) * (x 0%nat / s0) + (x 1%nat / s1) * (x 1%nat / s1).
Proof.
  intros HM H0 H1. exists (fun i j => if Nat.eqb i j then (if Nat.eqb i 0 then / (s0 * s0) else / (s1 * s1)) else 0). split; [|split; [|split; [|split]]].
  - intros i j Hi Hj. cbn [rsum]. rewrite !HM by lia. unfold ident. destruct i as [|[|i]], j as [|[|j]]; try lia; cbn; split; field; lra.
  - intros i j Hi Hj. rewrite !HM by lia. destruct i as [|[|i]], j as [|[|j]]; try lia; reflexivity.
  - intros v (i & Hi & Hv). unfold quad. cbn [rsum]. rewrite !HM by lia. cbn [Nat.eqb].
    assert (0 < s0 * s0) by (apply Rmult_lt_0_compat; assumption). assert (0 < s1 * s1) by (apply Rmult_lt_0_compat; assumption).
    assert (A0 : 0 <= v 0%nat * v 0%nat) by apply Rle_0_sqr. assert (A1 : 0 <= v 1%nat * v 1%nat) by apply Rle_0_sqr.
    assert (B0 : 0 <= s0 * s0 * (v 0%nat * v 0%nat)) by (apply Rmult_le_pos; lra). assert (B1 : 0 <= s1 * s1 * (v 1%nat * v 1%nat)) by (apply Rmult_le_pos; lra).
    assert (0 < s0 * s0 * (v 0%nat * v 0%nat) + s1 * s1 * (v 1%nat * v 1%nat)); [|lra].
    destruct i as [|[|i]]; [| |lia].
    + assert (0 < s0 * s0 * (v 0%nat * v 0%nat)); [|lra]. apply Rmult_lt_0_compat; [assumption|]. destruct A0 as [A0|A0]; [exact A0|]. exfalso. apply Hv. apply Rsqr_0_uniq. unfold Rsqr. lra.
    + assert (0 < s1 * s1 * (v 1%nat * v 1%nat)); [|lra]. apply Rmult_lt_0_compat; [assumption|]. destruct A1 as [A1|A1]; [exact A1|]. exfalso. apply Hv. apply Rsqr_0_uniq. unfold Rsqr. lra.
  - assert (E : mdet 2 M = (s0 * s1) * (s0 * s1)). { cbn [mdet]. unfold schur. rewrite !HM by lia. cbn [Nat.eqb]. field. lra. }
    assert (0 < s0 * s1) by (apply Rmult_lt_0_compat; assumption). rewrite E, Rabs_pos_eq by (apply Rmult_le_pos; lra). apply sqrt_square. lra.
  - intros x. unfold quad. cbn [rsum Nat.eqb]. field. lra.
Qed.

Lemma diag_kde (p q : pt) (s0 s1 : R) : 0 < s0 -> 0 < s1 ->
  (p 0%nat - q 0%nat) * (p 0%nat - q 0%nat) / 2 * (/ 10 * / 10) = s0 * s0 ->
  (p 1%nat - q 1%nat) * (p 1%nat - q 1%nat) / 2 * (/ 10 * / 10) = s1 * s1 ->
  exists K f, kde_init 2 [p; q] WNone (BwAtom (BNum (/ 10))) true None Box None None None = Ok K /\ kde_density K false 2 None PNone = Ok f
   /\ f p = / (s0 * s1 * dist_norm Box 2).
Proof.
  intros H0 H1 E0 E1. set (C := fun i j : nat => sumf (fun dw : pt * R => snd dw * (fst dw i - wmean (combine [p; q] [1; 1]) i) * (fst dw j - wmean (combine [p; q] [1; 1]) j)) (combine [p; q] [1; 1]) / 1).
  set (M := kernel_matrix C (diag_of (fun _ => / 10))). set (K := mkKDE 2 [p; q] None (neff_of 2 None) (Some (mkKernel Box 2 M)) None).
  assert (HK : kde_init 2 [p; q] WNone (BwAtom (BNum (/ 10))) true None Box None None None = Ok K).
  { unfold kde_init. cbn [length Nat.eqb check_weights bind]. unfold wdata_of, wlist. cbn [map]. rewrite two_cov. reflexivity. }
  assert (HC : forall i, C i i = (p i - q i) * (p i - q i) / 2). { intros i. unfold C, sumf, wmean, sumf. cbn. field. }
  destruct (diag_run p q s0 s1 M) as (N & HN & Hs & Hp & Hd & Hq); [|exact H0|exact H1|].
  { intros i j Hi Hj. unfold M, kernel_matrix, diag_of. destruct (Nat.eqb_spec i j) as [->|Hij]; [|ring]. rewrite HC. destruct j as [|[|j]]; [exact E0|exact E1|lia]. }
  destruct (kernel_density_plain Box 2 M [p; q] None Hs Hp) as (N' & W & HN' & HW & Hs' & Hi' & _ & Hf); [intros w Hw; discriminate|].
  eexists K, _. split; [exact HK|]. split.
  - unfold kde_density, K. cbn [resolve_params bind kd_data kd_ndim kd_reflect kd_kernel kd_weights]. rewrite Hf. reflexivity.
  - cbv beta. unfold ones. cbn [map combine]. rewrite (eval_numba_spec Box 2 N' W _ p HW Hs'). rewrite (spec_sum_ext Box 2 N' N _ p (inverse_unique 2 M N' N Hi' HN)). rewrite Hd.
    unfold spec_sum. rewrite !sumf_cons. unfold sumf at 1. cbn [fold_right map lsum fst snd]. rewrite !Hq. unfold psub.
    assert (D0 : 0 < s0 * s0) by (apply Rmult_lt_0_compat; assumption). assert (D1 : 0 < s1 * s1) by (apply Rmult_lt_0_compat; assumption).
    assert (N0 : 0 < dist_norm Box 2) by (apply dist_norm_pos; lia).
    assert (A : (p 0%nat - q 0%nat) / s0 * ((p 0%nat - q 0%nat) / s0) = 200).
    { transitivity ((p 0%nat - q 0%nat) * (p 0%nat - q 0%nat) / (s0 * s0)); [field; lra|]. apply Rmult_eq_reg_r with (s0 * s0); [|lra]. transitivity ((p 0%nat - q 0%nat) * (p 0%nat - q 0%nat)); [field; lra|lra]. }
    assert (B : (p 1%nat - q 1%nat) / s1 * ((p 1%nat - q 1%nat) / s1) = 200).
    { transitivity ((p 1%nat - q 1%nat) * (p 1%nat - q 1%nat) / (s1 * s1)); [field; lra|]. apply Rmult_eq_reg_r with (s1 * s1); [|lra]. transitivity ((p 1%nat - q 1%nat) * (p 1%nat - q 1%nat)); [field; lra|lra]. }
    rewrite A, B. unfold spec_prof. destruct (Rle_dec (200 + 200) 1) as [F|_]; [lra|].
    replace ((p 0%nat - p 0%nat) / s0 * ((p 0%nat - p 0%nat) / s0) + (p 1%nat - p 1%nat) / s1 * ((p 1%nat - p 1%nat) / s1)) with 0 by (field; lra).
    destruct (Rle_dec 0 1) as [_|F]; [|lra]. field. lra.
Qed.
Lemma diagonal_refuted : exists data g c K K' f f' x, linear_change 2 g c
  /\ kde_init 2 data WNone (BwAtom (BNum (/ 10))) true None Box None None None = Ok K /\ kde_density K false 2 None PNone = Ok f
  /\ kde_init 2 (map g data) WNone (BwAtom (BNum (/ 10))) true None Box None None None = Ok K' /\ kde_density K' false 2 None PNone = Ok f'
  /\ f' (g x) * c <> f x.
Proof.
  set (s := sqrt (/ 2) / 10). assert (Hq : 0 < sqrt (/ 2)) by (apply sqrt_lt_R0; lra). assert (Hs : 0 < s) by (unfold s; lra).
  assert (Es : s * s = / 2 * (/ 10 * / 10)). { unfold s. transitivity (sqrt (/ 2) * sqrt (/ 2) * (/ 10 * / 10)); [field|]. rewrite sqrt_sqrt by lra. reflexivity. }
  destruct (diag_kde (fun _ => 0) (fun _ => 1) s s Hs Hs) as (K & f & HK & Hf & E); [rewrite Es; field|rewrite Es; field|].
  assert (H2 : 0 < 2 * s) by lra.
  destruct (diag_kde (dg_map (fun _ => 0)) (dg_map (fun _ => 1)) (2 * s) s H2 Hs) as (K' & f' & HK' & Hf' & E').
  { replace (2 * s * (2 * s)) with (4 * (s * s)) by ring. rewrite Es. unfold dg_map. cbn. field. }
  { rewrite Es. unfold dg_map. cbn. field. }
  exists dg_data, dg_map, 1, K, K', f, f', (fun _ => 0). split; [apply (lc_shear 2 0 1 1); lia|]. split; [exact HK|]. split; [exact Hf|]. split; [exact HK'|]. split; [exact Hf'|].
  rewrite E, E'. assert (N0 : 0 < dist_norm Box 2) by (apply dist_norm_pos; lia). assert (Hn : 0 < s * s * dist_norm Box 2) by (apply Rmult_lt_0_compat; [apply Rmult_lt_0_compat; exact Hs|exact N0]).
  intros F. assert (G : 1 = 2). { apply (f_equal (fun v => v * (2 * (s * s * dist_norm Box 2)))) in F. transitivity (/ (2 * s * s * dist_norm Box 2) * 1 * (2 * (s * s * dist_norm Box 2))); [field; lra|]. rewrite F. field. lra. }
  lra.
Qed.

Lemma rotated : forall n a b, (2 <= n)%nat -> a * a + b * b = 1 -> forall data w bw resc d neffa (prob : bool), one_bandwidth bw ->
  res_rel (fun f f' : pt -> R => forall x, f' (rotation a b x) = f x)
    (do K <- kde_init n data w bw false resc d None neffa None ;; kde_density K prob n None PNone)
    (do K <- kde_init n (map (rotation a b) data) w bw false resc d None neffa None ;; kde_density K prob n None PNone).
Proof.
  intros n a b Hn H data w bw resc d neffa prob Hb. pose proof (linear_change_density n _ _ (rotation_change n a b Hn H) data w bw resc d neffa prob Hb) as R0. revert R0.
  generalize (do K <- kde_init n data w bw false resc d None neffa None ;; kde_density K prob n None PNone) (do K <- kde_init n (map (rotation a b) data) w bw false resc d None neffa None ;; kde_density K prob n None PNone).
  intros [f|e] [f'|e']; cbn; auto. intros E x. rewrite <- E. ring.
Qed.
Lemma exchanged : forall n k l, (k < n)%nat -> (l < n)%nat -> k <> l -> forall data w bw resc d neffa (prob : bool), one_bandwidth bw ->
  res_rel (fun f f' : pt -> R => forall x, f' (exchange k l x) = f x)
    (do K <- kde_init n data w bw false resc d None neffa None ;; kde_density K prob n None PNone)
    (do K <- kde_init n (map (exchange k l) data) w bw false resc d None neffa None ;; kde_density K prob n None PNone).
Proof.
  intros n k l Hk Hl Hne data w bw resc d neffa prob Hb. pose proof (linear_change_density n _ _ (exchange_change n k l Hk Hl Hne) data w bw resc d neffa prob Hb) as R0. revert R0.
  generalize (do K <- kde_init n data w bw false resc d None neffa None ;; kde_density K prob n None PNone) (do K <- kde_init n (map (exchange k l) data) w bw false resc d None neffa None ;; kde_density K prob n None PNone).
  intros [f|e] [f'|e']; cbn; auto. intros E x. rewrite <- E. ring.
Qed.
Lemma res_rel_ok {A} (P : A -> A -> Prop) a y : res_rel P (Ok a) y -> exists b, y = Ok b /\ P a b.
Proof. destruct y as [b|e]; cbn; [|intros []]. intros H. exists b. split; [reflexivity|exact H]. Qed.

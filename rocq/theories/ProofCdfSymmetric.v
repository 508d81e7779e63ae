(** KDE.cdf of mirrored data and of exchanged parameters (C153). *)
From Coquelicot Require Import Coquelicot.
From Coq Require Import ZArith Permutation FunctionalExtensionality.
From Verif Require Import Base ModelLinAlg ModelKernels ModelKDE ModelExtrema ModelInterp ModelResample ModelUtils ModelNd ModelGrid SpecLinAlg SpecKernels SpecIntegral SpecUtils SpecKDE SpecNd SpecGrid SpecLinear SpecReflected SpecCdfError SpecUnits SpecSymmetric SpecCdfUnits SpecCdfSymmetric.
From Verif Require Import ProofInterp ProofAffine ProofKDE ProofUtils ProofUtils2 ProofUtils3 ProofUtils4 ProofNested ProofNd ProofNd2 ProofGrid ProofCdf ProofLinear ProofTop ProofTop2 ProofTop3 ProofGrid3 ProofCdfError ProofSymmetric ProofExamples ProofContourUnits ProofCdfUnits.
Open Scope R_scope.
Notation length := List.length.

(* ------------------------------------------------------------ interpolation in a mirrored table *)
Definition its_bin (x : nat -> R) (m : nat) (v : R) (lo : nat) : Prop := (lo < m)%nat /\ (lo = O \/ x lo < v) /\ (S lo = m \/ v <= x (S lo)).
Lemma its_unique x m v lo : (1 <= m)%nat -> increasing x m -> its_bin x m v lo -> interp_bin x m v = lo.
Proof.
  intros Hm Hx (Hlo & Ha & Hb). apply incr_nondecr in Hx. unfold interp_bin. destruct (ssleft_spec x v (S m) 0) as (H1 & H2 & H3). set (k := ssleft x v (S m) 0) in *.
  destruct (le_lt_dec k lo) as [Hk|Hk].
  - specialize (H3 ltac:(lia)). destruct Ha as [->|Ha]; [lia|]. pose proof (Hx k lo Hk ltac:(lia)). lra.
  - destruct (Nat.eq_dec k (S lo)) as [->|Hne]; [lia|]. specialize (H2 (S lo) ltac:(lia)). destruct Hb as [Hb|Hb]; [lia|lra].
Qed.
Lemma bin_its x m v : (1 <= m)%nat -> increasing x m -> its_bin x m v (interp_bin x m v).
Proof.
  intros Hm Hx. unfold its_bin, interp_bin. destruct (ssleft_spec x v (S m) 0) as (H1 & H2 & H3). set (k := ssleft x v (S m) 0) in *. split; [lia|]. split.
  - destruct (le_lt_dec k 1); [left; lia|right]. apply H2. lia.
  - destruct (le_lt_dec m k); [left; lia|right]. specialize (H3 ltac:(lia)). destruct (Nat.eq_dec k 0) as [E|E].
    + replace (S (Nat.min (Nat.max k 1) m - 1)) with 1%nat by lia. rewrite E in H3. pose proof (Hx 0%nat 1%nat ltac:(lia) ltac:(lia)). lra.
    + replace (S (Nat.min (Nat.max k 1) m - 1)) with k by lia. exact H3.
Qed.
Lemma interp_mirror v c (e e' y y' : nat -> R) m x : (1 <= m)%nat -> increasing e m -> (forall i, (i <= m)%nat -> e' i = flip v (e (m - i)%nat)) -> (forall i, (i <= m)%nat -> y' i = c - y (m - i)%nat) ->
  interp e' y' m (flip v x) = c - interp e y m x.
Proof.
  intros Hm He Ee Ey.
  assert (He' : increasing e' m) by (intros i j Hij Hj; rewrite !Ee by lia; unfold flip; pose proof (He (m - j)%nat (m - i)%nat ltac:(lia) ltac:(lia)); lra).
  destruct (bin_its e m x Hm He) as (Hlo & Ha & Hb). set (lo := interp_bin e m x) in *.
  destruct (Req_dec x (e (S lo))) as [Ek|Nk].
  - rewrite Ek at 2. rewrite interp_knot by (try assumption; lia).
    assert (E : flip v x = e' (m - S lo)%nat) by (rewrite Ee by lia; replace (m - (m - S lo))%nat with (S lo) by lia; rewrite Ek; reflexivity).
    rewrite E, interp_knot by (try assumption; lia). rewrite Ey by lia. f_equal. f_equal. lia.
  - assert (E : interp_bin e' m (flip v x) = (m - S lo)%nat).
    { apply its_unique; [exact Hm|exact He'|]. split; [lia|]. split.
      - destruct (Nat.eq_dec (S lo) m); [left; lia|right]. rewrite Ee by lia. replace (m - (m - S lo))%nat with (S lo) by lia. unfold flip. destruct Hb as [Hb|Hb]; [lia|]. lra.
      - destruct (Nat.eq_dec lo 0); [left; lia|right]. rewrite Ee by lia. replace (m - S (m - S lo))%nat with lo by lia. unfold flip. destruct Ha as [Ha|Ha]; [lia|]. lra. }
    unfold interp. rewrite E. fold lo. rewrite !Ee, !Ey by lia. replace (m - (m - S lo))%nat with (S lo) by lia. replace (m - S (m - S lo))%nat with lo by lia.
    pose proof (He lo (S lo) ltac:(lia) ltac:(lia)). unfold flip. field. lra.
Qed.
Lemma trap_mirror v (e e' f f' : nat -> R) m : (forall i, (i <= m)%nat -> e' i = flip v (e (m - i)%nat)) -> (forall i, (i <= m)%nat -> f' i = f (m - i)%nat) ->
  forall i, (i <= m)%nat -> trap e' f' i = trap e f m - trap e f (m - i).
Proof.
  intros Ee Ef. induction i as [|i IH]; intros Hi; [unfold trap at 1; cbn [rsum]; rewrite Nat.sub_0_r; ring|].
  unfold trap at 1. cbn [rsum]. fold (trap e' f' i). rewrite IH by lia. replace (m - i)%nat with (S (m - S i)) by lia. unfold trap at 2 4. cbn [rsum].
  rewrite !Ee, !Ef by lia. replace (m - i)%nat with (S (m - S i)) by lia. unfold flip, trap. field.
Qed.
Lemma mirror_grid_length v g : length (mirror_grid v g) = length g.
Proof. unfold mirror_grid. rewrite rev_length. apply map_length. Qed.
Lemma mirror_grid_nth v g i : (i < length g)%nat -> nth i (mirror_grid v g) 0 = flip v (nth (length g - 1 - i) g 0).
Proof.
  intros Hi. unfold mirror_grid. rewrite rev_nth by (rewrite map_length; exact Hi). rewrite map_length.
  rewrite (nth_indep _ 0 (flip v 0)) by (rewrite map_length; lia). rewrite map_nth. f_equal. f_equal. lia.
Qed.
Lemma mirror_grid_is v g : is_grid [g] -> is_grid [mirror_grid v g].
Proof.
  intros HG h [<-|[]]. destruct (HG g (or_introl eq_refl)) as [Hl Hi]. rewrite mirror_grid_length. split; [exact Hl|]. intros i j Hij. rewrite !mirror_grid_nth by lia. unfold flip.
  pose proof (Hi (length g - 1 - j)%nat (length g - 1 - i)%nat ltac:(lia)). lra.
Qed.
Lemma rsum_nonneg_zero m (t : nat -> R) : (forall i, (i < m)%nat -> 0 <= t i) -> rsum m t <= 0 -> forall i, (i < m)%nat -> t i = 0.
Proof.
  intros Hp HT. assert (G : forall k, (k <= m)%nat -> 0 <= rsum k t). { induction k as [|k IH]; intros Hk; cbn; [lra|]. specialize (IH ltac:(lia)). specialize (Hp k ltac:(lia)). lra. }
  induction m as [|m IH]; intros i Hi; [lia|]. cbn [rsum] in HT. pose proof (G m ltac:(lia)). pose proof (Hp m ltac:(lia)).
  destruct (Nat.eq_dec i m) as [->|]; [lra|]. apply IH; [intros; apply Hp; lia|lra|intros; apply G; lia|lia].
Qed.
Lemma trap_zero (e f : nat -> R) m : (1 <= m)%nat -> increasing e m -> (forall i, (i <= m)%nat -> 0 <= f i) -> trap e f m <= 0 -> forall i, (i <= m)%nat -> f i = 0.
Proof.
  intros Hm He Hf HT.
  assert (Hp : forall i, (i < m)%nat -> 0 <= (e (S i) - e i) * (f i + f (S i)) / 2).
  { intros i Hi. pose proof (He i (S i) ltac:(lia) ltac:(lia)). pose proof (Hf i ltac:(lia)). pose proof (Hf (S i) ltac:(lia)). apply Rmult_le_pos; [apply Rmult_le_pos; lra|lra]. }
  assert (Hz : forall i, (i < m)%nat -> (e (S i) - e i) * (f i + f (S i)) / 2 = 0).
  { apply (rsum_nonneg_zero m (fun i => (e (S i) - e i) * (f i + f (S i)) / 2) Hp HT). }
  assert (Hs : forall i, (i < m)%nat -> f i = 0 /\ f (S i) = 0).
  { intros i Hi. specialize (Hz i Hi). pose proof (He i (S i) ltac:(lia) ltac:(lia)). pose proof (Hf i ltac:(lia)). pose proof (Hf (S i) ltac:(lia)). assert (E : (e (S i) - e i) * (f i + f (S i)) = 0) by lra. apply Rmult_integral in E. destruct E as [E|E]; [lra|]. split; lra. }
  intros i Hi. destruct (Nat.eq_dec i m) as [->|]; [|apply (Hs i); lia]. destruct m as [|m]; [lia|]. apply (Hs m). lia.
Qed.
Lemma cdf_mirror_core v K K' f f' g x : is_grid [g] -> kde_density K true 1 None PNone = Ok f -> kde_density K' true 1 None PNone = Ok f' ->
  (forall y, 0 <= f y) -> (forall y z : pt, y O = z O -> f y = f z) -> (forall y z : pt, y O = z O -> f' y = f' z) -> (forall y, f' (mirrored 0 v y) = f y) ->
  kde_cdf K' [mirror_grid v g] false false [flip v x] = complement (kde_cdf K [g] false false [x]).
Proof.
  intros HG Hf Hf' Hpos HL HL' HM. pose proof (mirror_grid_is v g HG) as HG'. destruct (grid_1 g HG) as [Hm He].
  set (m := (length g - 1)%nat) in *.
  assert (EM : forall t, f' (pt1 (flip v t)) = f (pt1 t)) by (intros t; rewrite <- HM; apply HL'; reflexivity).
  assert (Hpos' : forall y, 0 <= f' y). { intros y. rewrite (HL' y (pt1 (flip v (flip v (y O))))) by (unfold pt1, flip; ring). rewrite EM. apply Hpos. }
  assert (Ee : forall i, (i <= m)%nat -> vget (mirror_grid v g) i = flip v (vget g (m - i)%nat)) by (intros i Hi; apply mirror_grid_nth; lia).
  set (F := fun i => f (pt1 (vget g i))). set (F' := fun i => f' (pt1 (vget (mirror_grid v g) i))).
  assert (EF : forall i, (i <= m)%nat -> F' i = F (m - i)%nat) by (intros i Hi; unfold F', F; rewrite Ee by exact Hi; apply EM).
  pose proof (trap_mirror v (vget g) (vget (mirror_grid v g)) F F' m Ee EF) as ET.
  assert (ETm : trap (vget (mirror_grid v g)) F' m = trap (vget g) F m) by (rewrite ET, Nat.sub_diag by lia; unfold trap at 2; cbn [rsum]; ring).
  destruct (Rlt_le_dec 0 (trap (vget g) F m)) as [HT|HT].
  - rewrite (cdf_run K g f HG Hf Hpos (fun y i _ _ => HL y (pt1 (y O)) eq_refl) HT).
    pose proof (cdf_run K' (mirror_grid v g) f' HG' Hf' Hpos' (fun y i _ _ => HL' y (pt1 (y O)) eq_refl)) as HR. rewrite mirror_grid_length in HR. fold m F' in HR. rewrite HR by (rewrite ETm; exact HT).
    fold m F. cbn [complement]. do 2 f_equal. rewrite ETm.
    rewrite (interp_mirror v (trap (vget g) F m) (vget g) (vget (mirror_grid v g)) (trap (vget g) F) (trap (vget (mirror_grid v g)) F') m x Hm He Ee ET). field. lra.
  - pose proof (trap_zero (vget g) F m Hm He (fun i _ => Hpos _) HT) as HZ.
    rewrite (cdf_nan K g f x HG Hf) by (intros i Hi; rewrite (HL _ (pt1 (vget g i))) by reflexivity; apply HZ; unfold m; lia).
    apply (cdf_nan K' _ f' _ HG' Hf'). intros i Hi. rewrite mirror_grid_length in Hi. rewrite (HL' _ (pt1 (vget (mirror_grid v g) i))) by reflexivity.
    change (F' i = 0). rewrite EF by (unfold m; lia). apply HZ. lia.
Qed.
Lemma init_kernel n data w b diag resc d neffa refl K : kde_init n data w b diag resc d None neffa refl = Ok K -> kd_ndim K = n /\ forall prob p f, kde_density K prob p None PNone = Ok f -> exists d M, kd_kernel K = Some (mkKernel d n M).
Proof.
  intros HK. pose proof (kde_init_aff n data w b diag resc d neffa refl (fun _ => 0) (fun _ => 1) ltac:(intros; lra)) as HR. rewrite HK in HR.
  destruct (kde_init n (map _ data) w b diag resc d None neffa _) as [K'|]; [|contradiction]. cbn [res_rel] in HR. destruct HR as (En & _ & _ & _ & _ & (d0 & M & [[Hk _]|[Hk _]]) & _).
  - split; [exact En|]. intros _ _ _ _. exists d0, M. rewrite <- En. exact Hk.
  - split; [exact En|]. intros prob p f Hf. exfalso. unfold kde_density in Hf. cbn [resolve_params bind] in Hf. rewrite Hk in Hf. destruct (match match kd_reflect K with Some r => Some r | None => None end with Some r => _ | None => false end) in Hf; discriminate.
Qed.
Lemma cdf_err K grid x e : kde_density K true (length grid) None PNone = Err e -> kde_cdf K grid false false x = Err e.
Proof. intros H. unfold kde_cdf, density_grid. rewrite H. reflexivity. Qed.
Theorem cdf_mirror v data w b resc d neffa g x : one_bandwidth b -> is_grid [g] ->
  (do K <- kde_init 1 (map (mirrored 0 v) data) w b false resc d None neffa None ;; kde_cdf K [mirror_grid v g] false false [flip v x])
  = complement (do K <- kde_init 1 data w b false resc d None neffa None ;; kde_cdf K [g] false false [x]).
Proof.
  intros Hb HG. pose proof (linear_change_density 1 _ 1 (mirror_linear 1 0 v (le_n 1)) data w b resc d neffa true Hb) as HR.
  destruct (kde_init 1 data w b false resc d None neffa None) as [K|e] eqn:HK, (kde_init 1 (map (mirrored 0 v) data) w b false resc d None neffa None) as [K'|e'] eqn:HK'; cbn [bind] in *.
  - destruct (kde_density K true 1 None PNone) as [f|e] eqn:Ef, (kde_density K' true 1 None PNone) as [f'|e'] eqn:Ef'; cbn [res_rel] in HR; try contradiction.
    + destruct (init_kernel _ _ _ _ _ _ _ _ _ _ HK) as [En HE]. destruct (init_kernel _ _ _ _ _ _ _ _ _ _ HK') as [En' HE'].
      destruct (HE _ _ _ Ef) as (d1 & M & Hk). destruct (HE' _ _ _ Ef') as (d2 & M' & Hk').
      apply (cdf_mirror_core v K K' f f' g x HG Ef Ef').
      * intros y. apply (kde_nonneg _ _ _ _ _ _ _ _ _ _ _ _ _ _ _ _ y HK Ef).
      * intros y z Hyz. apply (density_near K true 1 f d1 M En Hk Ef). intros [|i] Hi; [exact Hyz|lia].
      * intros y z Hyz. apply (density_near K' true 1 f' d2 M' En' Hk' Ef'). intros [|i] Hi; [exact Hyz|lia].
      * intros y. rewrite <- HR. ring.
    + rewrite (cdf_err K [g] _ e Ef), (cdf_err K' [mirror_grid v g] _ e' Ef'). cbn [complement]. congruence.
  - destruct (kde_density K true 1 None PNone) as [f|e] eqn:Ef; cbn [res_rel] in HR; [contradiction|]. rewrite (cdf_err K [g] _ e Ef). cbn [complement]. congruence.
  - destruct (kde_density K' true 1 None PNone) as [f|e0] eqn:Ef; cbn [res_rel] in HR; [contradiction|]. rewrite (cdf_err K' [mirror_grid v g] _ e0 Ef). cbn [complement]. congruence.
  - cbn [res_rel] in HR. cbn [complement]. congruence.
Qed.
(** Symmetric data on a symmetric grid. *)
Theorem cdf_symmetric v data w ws b resc d neffa M K g x : unchanged (mirrored 0 v) data ws -> one_bandwidth b -> weights_given w data ws ->
  kde_init 1 data w b false resc d None neffa None = Ok K -> kd_kernel K = Some (mkKernel d 1 M) -> symmetric 1 M -> posdef 1 M -> is_grid [g] -> mirror_grid v g = g ->
  kde_cdf K [g] false false [flip v x] = complement (kde_cdf K [g] false false [x]).
Proof.
  intros Hu Hb Hw HK HKK HS HP HG Eg. assert (HB : built_kde 1 data ws d M None K) by (split; [exists w, b, false, resc, None, neffa; split; assumption|split; [exact HKK|split; assumption]]).
  destruct (density_refl_exists_none 1 _ _ _ _ _ true HB (le_n 1)) as [f Hf].
  destruct (init_kernel _ _ _ _ _ _ _ _ _ _ HK) as [En _]. pose proof (density_near K true 1 f d M En HKK Hf) as HL.
  rewrite <- Eg at 1. apply (cdf_mirror_core v K K f f g x HG Hf Hf).
  - intros y. apply (kde_nonneg _ _ _ _ _ _ _ _ _ _ _ _ _ _ _ _ y HK Hf).
  - intros y z Hyz. apply HL. intros [|i] Hi; [exact Hyz|lia].
  - intros y z Hyz. apply HL. intros [|i] Hi; [exact Hyz|lia].
  - apply (sym_mirror 1 0 v data w ws b resc d neffa M K true f (le_n 1) Hu Hb Hw HK HKK HS HP Hf).
Qed.
Theorem cdf_centre v data w ws b resc d neffa M K g p : unchanged (mirrored 0 v) data ws -> one_bandwidth b -> weights_given w data ws ->
  kde_init 1 data w b false resc d None neffa None = Ok K -> kd_kernel K = Some (mkKernel d 1 M) -> symmetric 1 M -> posdef 1 M -> is_grid [g] -> mirror_grid v g = g ->
  kde_cdf K [g] false false [v] = Ok (Fin p) -> p = 1 / 2.
Proof.
  intros Hu Hb Hw HK HKK HS HP HG Eg Hp. pose proof (cdf_symmetric v data w ws b resc d neffa M K g v Hu Hb Hw HK HKK HS HP HG Eg) as H.
  replace (flip v v) with v in H by (unfold flip; ring). rewrite Hp in H. cbn [complement] in H. injection H as H. lra.
Qed.

(* ------------------------------------------------------------ exchanged parameters *)
Lemma nd_max_perm a b : Permutation (flatten_nd a) (flatten_nd b) -> nd_max a = nd_max b.
Proof.
  intros HP. unfold nd_max. destruct (flatten_nd a) as [|x l], (flatten_nd b) as [|y r]; [reflexivity|apply Permutation_nil in HP; discriminate|apply Permutation_sym, Permutation_nil in HP; discriminate|].
  destruct (vmax_spec x l) as [H1 H2]. destruct (vmax_spec y r) as [H3 H4]. apply Rle_antisym.
  - apply H4, (Permutation_in _ HP), H1.
  - apply H2, (Permutation_in _ (Permutation_sym HP)), H3.
Qed.
Lemma nint_swap gx gy F F' x y : two_values [gx; gy] -> (forall i j, (i < length gx)%nat -> (j < length gy)%nat -> F' [j; i] = F [i; j]) ->
  nint [gy; gx] F' [y; x] = nint [gx; gy] F [x; y].
Proof.
  intros HG HF. pose proof (HG gx (or_introl eq_refl)) as Hx. pose proof (HG gy (or_intror (or_introl eq_refl))) as Hy. cbn [nint]. unfold interp.
  set (i := interp_bin (vget gx) (length gx - 1) x). set (j := interp_bin (vget gy) (length gy - 1) y).
  assert (S i < length gx)%nat by (unfold i, interp_bin; lia). assert (S j < length gy)%nat by (unfold j, interp_bin; lia).
  rewrite !HF by lia. unfold Rdiv. ring.
Qed.
Lemma trapezoids_swap gx gy F F' : (forall i j, (i < length gx)%nat -> (j < length gy)%nat -> F' [j; i] = F [i; j]) -> trapezoids [gy; gx] F' = trapezoids [gx; gy] F.
Proof.
  intros HF. cbn [trapezoids]. unfold trapezoid.
  transitivity (rsum (length gy - 1) (fun j => rsum (length gx - 1) (fun i => (nth (S j) gy 0 - nth j gy 0) / 2 * ((nth (S i) gx 0 - nth i gx 0) / 2 * (F [i; j] + F [S i; j] + F [i; S j] + F [S i; S j]))))).
  - apply rsum_ext. intros j Hj. unfold Rdiv at 1. rewrite <- rsum_plus. rewrite (Rmult_comm (_ * _) (/ 2)), <- !rsum_scal. apply rsum_ext. intros i Hi. rewrite !HF by lia. field.
  - rewrite rsum_swap2. apply rsum_ext. intros i Hi. rewrite <- rsum_plus. unfold Rdiv at 3. rewrite (Rmult_comm (_ * _) (/ 2)), <- !rsum_scal. apply rsum_ext. intros j Hj. field.
Qed.
Lemma inb_2 n m i j : SpecNd.inb [n; m] [i; j] <-> (i < n)%nat /\ (j < m)%nat.
Proof. split; [intros H; inversion H as [|? ? ? ? H1 H2]; subst; inversion H2; subst; split; assumption|intros [H1 H2]; repeat constructor; assumption]. Qed.
Lemma cdf_exchange_core K K' f f' gx gy x y : two_values [gx; gy] -> kde_density K true 2 None PNone = Ok f -> kde_density K' true 2 None PNone = Ok f' ->
  (forall u v : pt, (forall i, (i < 2)%nat -> u i = v i) -> f' u = f' v) -> (forall u, f' (exchange 0 1 u) = f u) ->
  kde_cdf K' [gy; gx] false false [y; x] = kde_cdf K [gx; gy] false false [x; y].
Proof.
  intros HG Hf Hf' HL HE. pose proof (HG gx (or_introl eq_refl)) as Hx. pose proof (HG gy (or_intror (or_introl eq_refl))) as Hy.
  destruct (density_grid_pointwise K true None PNone [gx; gy] f Hf) as [a [Ha [Hs Hv]]]. destruct (density_grid_pointwise K' true None PNone [gy; gx] f' Hf') as [a' [Ha' [Hs' Hv']]].
  assert (Hne : forall g, In g [gx; gy] -> g <> []) by (intros g [<-|[<-|[]]] E; rewrite E in *; cbn in *; lia).
  assert (Hne' : forall g, In g [gy; gx] -> g <> []) by (intros g [<-|[<-|[]]]; apply Hne; cbn; auto).
  destruct (cumtrapz_value a [gx; gy] Hs Hne) as [r [Hr [Hrs [Hrv _]]]]. destruct (cumtrapz_value a' [gy; gx] Hs' Hne') as [r' [Hr' [Hrs' [Hrv' _]]]].
  cbn [map] in Hs, Hs'.
  assert (Eval : forall i j, (i < length gx)%nat -> (j < length gy)%nat -> at_ a' [j; i] = at_ a [i; j]).
  { intros i j Hi Hj. rewrite Hv by (rewrite Hs; apply inb_2; split; assumption). rewrite Hv' by (rewrite Hs'; apply inb_2; split; assumption). rewrite <- HE. apply HL.
    intros [|[|k]] Hk; [reflexivity|reflexivity|lia]. }
  assert (Er : forall i j, (i < length gx)%nat -> (j < length gy)%nat -> at_ r' [j; i] = at_ r [i; j]).
  { intros i j Hi Hj. rewrite Hrv by (rewrite Hs; apply inb_2; split; assumption). rewrite Hrv' by (rewrite Hs'; apply inb_2; split; assumption). cbn [cut_edges].
    apply trapezoids_swap. intros i0 j0 Hi0 Hj0. pose proof (firstn_length (S i) gx). pose proof (firstn_length (S j) gy). apply Eval; lia. }
  assert (Em : nd_max r' = nd_max r).
  { apply nd_max_perm, Permutation_sym, flatten_exchanged. exists (length gx), (length gy). split; [congruence|]. split; [congruence|]. intros i j Hi Hj. apply Er; assumption. }
  unfold kde_cdf. rewrite Ha, Ha'. cbn [bind]. rewrite Hr, Hr'. cbn [bind forallb]. rewrite !andb_true_r, (andb_comm (ascending gy)). destruct (ascending gx && ascending gy)%bool; cbn [negb]; [|reflexivity].
  rewrite Em. destruct (Reqb_spec (nd_max r) 0); [reflexivity|]. f_equal. f_equal. rewrite !rgi_nested by reflexivity. apply nint_swap; [exact HG|].
  intros i j Hi Hj. cbn [map_nd at_]. rewrite Er by assumption. reflexivity.
Qed.
Theorem cdf_exchange data w b resc d neffa gx gy x y : one_bandwidth b -> two_values [gx; gy] ->
  (do K <- kde_init 2 (map (exchange 0 1) data) w b false resc d None neffa None ;; kde_cdf K [gy; gx] false false [y; x])
  = (do K <- kde_init 2 data w b false resc d None neffa None ;; kde_cdf K [gx; gy] false false [x; y]).
Proof.
  intros Hb HG. pose proof (ProofLinear.exchanged 2 0 1 ltac:(lia) ltac:(lia) ltac:(lia) data w b resc d neffa true Hb) as HR.
  destruct (kde_init 2 data w b false resc d None neffa None) as [K|e] eqn:HK, (kde_init 2 (map (exchange 0 1) data) w b false resc d None neffa None) as [K'|e'] eqn:HK'; cbn [bind] in *.
  - destruct (kde_density K true 2 None PNone) as [f|e] eqn:Ef, (kde_density K' true 2 None PNone) as [f'|e'] eqn:Ef'; cbn [res_rel] in HR; try contradiction.
    + destruct (init_kernel _ _ _ _ _ _ _ _ _ _ HK') as [En' HE']. destruct (HE' _ _ _ Ef') as (d2 & M' & Hk').
      apply (cdf_exchange_core K K' f f' gx gy x y HG Ef Ef'); [|exact HR]. apply (density_near K' true 2 f' d2 M' En' Hk' Ef').
    + rewrite (cdf_err K [gx; gy] _ e Ef), (cdf_err K' [gy; gx] _ e' Ef'). congruence.
  - destruct (kde_density K true 2 None PNone) as [f|e] eqn:Ef; cbn [res_rel] in HR; [contradiction|]. rewrite (cdf_err K [gx; gy] _ e Ef). congruence.
  - destruct (kde_density K' true 2 None PNone) as [f|e0] eqn:Ef; cbn [res_rel] in HR; [contradiction|]. rewrite (cdf_err K' [gy; gx] _ e0 Ef). congruence.
  - cbn [res_rel] in HR. congruence.
Qed.
Lemma two_symmetric : exists K M, unchanged (mirrored 0 (1 / 2)) [q00; q10] [1; 1] /\ weights_given WNone [q00; q10] [1; 1]
  /\ kde_init 1 [q00; q10] WNone BwNone false None Gaussian None None None = Ok K /\ kd_kernel K = Some (mkKernel Gaussian 1 M) /\ symmetric 1 M /\ posdef 1 M.
Proof.
  assert (HG : weights_given WNone [q00; q10] [1; 1]) by (left; split; reflexivity).
  destruct (default_ok 1 [q00; q10] WNone [1; 1] Gaussian None) as (K & M & N & HK & HKK & HS & HP & _); try assumption; [discriminate|reflexivity|intros v [<-|[<-|[]]]; lra| | |].
  - unfold nnz. cbn. destruct (Reqb_spec 1 0); [lra|]. cbn. lia.
  - intros (v & c & (i & Hi & Hv) & H). assert (i = 0)%nat by lia. subst i. pose proof (H q00 1 (or_introl eq_refl) ltac:(lra)) as A. pose proof (H q10 1 (or_intror (or_introl eq_refl)) ltac:(lra)) as B. unfold q00, q10 in A, B. cbn in A, B. apply Hv. lra.
  - exists K, M. split; [|repeat (split; [assumption|]); assumption].
    assert (E0 : mirrored 0 (1 / 2) q00 = q10) by (apply functional_extensionality; intros [|i]; unfold mirrored, q00, q10; cbn; lra).
    assert (E1 : mirrored 0 (1 / 2) q10 = q00) by (apply functional_extensionality; intros [|i]; unfold mirrored, q00, q10; cbn; lra).
    unfold unchanged. cbn [map combine]. rewrite E0, E1. apply perm_swap.
Qed.

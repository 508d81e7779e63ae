(** Symmetric and mirrored data with boundaries (C156). *)
From Coq Require Import Permutation FunctionalExtensionality.
From Verif Require Import Base ModelLinAlg SpecLinAlg ModelKernels ModelKDE SpecKDE SpecLinear SpecReflected SpecSymmetric SpecEdgeSlope SpecSymmetricWall.
From Verif Require Import ProofDensity ProofTop2 ProofTop3 ProofExamples ProofLinear ProofSymmetric ProofCdfSymmetric ProofEdgeSlope.
Open Scope R_scope.
Notation length := List.length.

Lemma mirrored_at k v (x : pt) : mirrored k v x k = 2 * v - x k.
Proof. unfold mirrored. destruct (Nat.eq_dec k k); [reflexivity|contradiction]. Qed.
Lemma mirrored_other k v (x : pt) j : j <> k -> mirrored k v x j = x j.
Proof. intros H. unfold mirrored. destruct (Nat.eq_dec j k); [contradiction|reflexivity]. Qed.
Lemma mirror_mean k v wd j : sumf (snd (B := R)) wd <> 0 -> wmean (on_fst (mirrored k v) wd) j = mirrored k v (wmean wd) j.
Proof.
  intros HS. destruct (Nat.eq_dec j k) as [->|H].
  - rewrite mirrored_at. unfold wmean, on_fst. rewrite !sumf_map. cbn [fst snd]. change (sumf (fun x : pt * R => snd x) wd) with (sumf (snd (B := R)) wd).
    rewrite (sumf_ext _ (fun x : pt * R => snd x * (2 * v) + -1 * (snd x * fst x k))) by (intros x _; rewrite mirrored_at; ring). rewrite sumf_plus, sumf_scal_r, sumf_scal.
    change (sumf (fun x : pt * R => snd x) wd) with (sumf (snd (B := R)) wd). field. exact HS.
  - rewrite mirrored_other by exact H. unfold wmean, on_fst. rewrite !sumf_map. cbn [fst snd]. f_equal. apply sumf_ext. intros x _. rewrite mirrored_other by exact H. reflexivity.
Qed.
Lemma mirror_cov k v wd C C' j : np_cov wd = Some C -> np_cov (on_fst (mirrored k v) wd) = Some C' -> j <> k -> C' k j = - C k j.
Proof.
  intros HC HC' Hj. unfold np_cov in HC, HC'. rewrite cov_fact_fst in HC'. destruct (Rleb_spec (cov_fact wd) 0) as [H|H]; [discriminate|].
  assert (HS : sumf (snd (B := R)) wd <> 0). { intros E. apply H. unfold cov_fact. rewrite E. unfold Rdiv. rewrite Rinv_0. lra. }
  injection HC as EC. injection HC' as EC'. pose proof (f_equal (fun F : mat => F k j) EC) as E1. pose proof (f_equal (fun F : mat => F k j) EC') as E2. cbv beta in E1, E2.
  rewrite !mirror_mean in E2 by exact HS. rewrite mirrored_at, (mirrored_other k v (wmean wd) j) in E2 by exact Hj. unfold on_fst in E2. rewrite sumf_map in E2. cbn [fst snd] in E2.
  rewrite (sumf_ext _ (fun x : pt * R => -1 * (snd x * (fst x k - wmean wd k) * (fst x j - wmean wd j)))) in E2 by (intros x _; rewrite mirrored_at, mirrored_other by exact Hj; ring).
  rewrite sumf_scal in E2. unfold Rdiv in *. lra.
Qed.
(** Symmetric data are not correlated with the others in the mirrored dimension. *)
Lemma sym_cov k v wd C j : Permutation (on_fst (mirrored k v) wd) wd -> np_cov wd = Some C -> j <> k -> C k j = 0.
Proof.
  intros HP HC Hj. assert (HC' : np_cov (on_fst (mirrored k v) wd) = Some C) by (rewrite (np_cov_perm _ _ HP); exact HC). pose proof (mirror_cov k v wd C C j HC HC' Hj). lra.
Qed.
Lemma sym_apart n k v data w ws b resc d neffa M K : unchanged (mirrored k v) data ws -> one_bandwidth b -> weights_given w data ws ->
  kde_init n data w b false resc d None neffa None = Ok K -> kd_kernel K = Some (mkKernel d n M) -> symmetric n M -> posdef n M -> apart n M k.
Proof.
  intros Hu Hb Hw HK HKK HS HP j Hj Hne.
  assert (HB : built_kde n data ws d M None K) by (split; [exists w, b, false, resc, None, neffa; split; assumption|split; [exact HKK|split; assumption]]).
  destruct (built_inv _ _ _ _ _ _ _ HB) as (_ & _ & _ & _ & Ew & _). unfold kde_init in HK. destruct (Nat.eqb (length data) 0); [discriminate|].
  destruct (check_weights (length data) w) as [ow|]; cbn [bind] in HK; [|discriminate]. set (neff := match neffa with Some x => x | None => _ end) in HK. destruct (set_bandwidth neff n false b resc) as [bw|] eqn:Eb; cbn [bind] in HK; [|discriminate].
  destruct (one_bandwidth_const _ _ _ _ _ Hb Eb) as [r ->]. injection HK as <-. cbn [kd_kernel kd_weights kd_data] in *. unfold wdata_of in HKK. rewrite Ew in HKK.
  destruct (np_cov (combine data ws)) as [C|] eqn:EC; [|discriminate]. unfold kernel_init in HKK. injection HKK as <-. unfold kernel_matrix.
  rewrite (sym_cov k v (combine data ws) C j); [ring| |exact EC|exact Hne]. rewrite <- combine_on_fst. exact Hu.
Qed.
Theorem wall_doubled n k v data w ws b resc d neffa M K (prob : bool) (r : reflspec) lim s f g : unchanged (mirrored k v) data ws -> one_bandwidth b -> weights_given w data ws ->
  kde_init n data w b false resc d None neffa None = Ok K -> kd_kernel K = Some (mkKernel d n M) -> symmetric n M -> posdef n M -> only n r k lim -> one_limit lim v s ->
  kde_density K prob n (Some r) PNone = Ok f -> kde_density K prob n None PNone = Ok g ->
  forall x, (within r x k -> f x = 2 * g x) /\ (~ within r x k -> f x = 0).
Proof.
  intros Hu Hb Hw HK HKK HS HP HO HL Hf Hg x.
  assert (HB : built_kde n data ws d M None K) by (split; [exists w, b, false, resc, None, neffa; split; assumption|split; [exact HKK|split; assumption]]).
  destruct (folded n data ws d M K prob r k lim f g HB HO (sym_apart n k v data w ws b resc d neffa M K Hu Hb Hw HK HKK HS HP) Hf Hg x) as [H1 H2]. split; [|exact H2].
  intros Hx. rewrite (H1 Hx). pose proof (sym_mirror n k v data w ws b resc d neffa M K prob g ltac:(apply HO) Hu Hb Hw HK HKK HS HP Hg x) as E.
  destruct HL as [[-> _]|[-> _]]; cbn [boundaries app]; unfold sumf; cbn [map lsum]; rewrite E; ring.
Qed.
Lemma mirror_twice k a b c e (x : pt) : a - b = c - e -> mirrored k a (mirrored k b x) = mirrored k c (mirrored k e x).
Proof. intros H. apply functional_extensionality. intros j. unfold mirrored. destruct (Nat.eq_dec j k); [lra|reflexivity]. Qed.
Lemma within_flip n r r' k v lim x : only n r k lim -> only n r' k (flip_limits v lim) -> (within r' (mirrored k v x) k <-> within r x k).
Proof.
  intros (_ & _ & E & _) (_ & _ & E' & _). destruct lim as [[lo|] [hi|]]; unfold flip_limits, flip in E'; cbn [fst snd option_map] in E'; unfold within; rewrite E, E'; split; intros H l u Q; injection Q as <- <-;
    specialize (H _ _ eq_refl); rewrite mirrored_at in *; destruct H as [Ha Hb]; split; intros q Hq; try discriminate; injection Hq as <-;
    try (pose proof (Ha _ eq_refl)); try (pose proof (Hb _ eq_refl)); lra.
Qed.
Lemma flip_sum k v lim (g g' : pt -> R) x : (forall y, g' (mirrored k v y) = g y) ->
  sumf (fun u => g' (mirrored k u (mirrored k v x))) (boundaries (Some (flip_limits v lim))) = sumf (fun u => g (mirrored k u x)) (boundaries (Some lim)).
Proof.
  intros Hg. assert (E : forall u, g' (mirrored k (flip v u) (mirrored k v x)) = g (mirrored k u x)).
  { intros u. rewrite <- Hg. f_equal. apply mirror_twice. unfold flip. ring. }
  destruct lim as [[lo|] [hi|]]; unfold flip_limits, sumf; cbn [fst snd option_map boundaries app map lsum]; rewrite ?E; ring.
Qed.
(** Density and mirrored density, without and with boundaries. *)
Lemma folded_flip n data ws data' ws' d M M' K K' (prob : bool) r r' k v lim f g f' g' : built_kde n data ws d M None K -> built_kde n data' ws' d M' None K' -> apart n M k -> apart n M' k ->
  only n r k lim -> only n r' k (flip_limits v lim) -> kde_density K prob n (Some r) PNone = Ok f -> kde_density K prob n None PNone = Ok g -> kde_density K' prob n (Some r') PNone = Ok f' -> kde_density K' prob n None PNone = Ok g' ->
  (forall x, g' (mirrored k v x) = g x) -> forall x, f' (mirrored k v x) = f x.
Proof.
  intros HB HB' HA HA' HO HO' Hf Hg Hf' Hg' HG x. destruct (folded n data ws d M K prob r k lim f g HB HO HA Hf Hg x) as [H1 H2]. destruct (folded n data' ws' d M' K' prob r' k _ f' g' HB' HO' HA' Hf' Hg' (mirrored k v x)) as [H3 H4].
  pose proof (within_flip n r r' k v lim x HO HO') as HW. destruct (Classical_Prop.classic (within r x k)) as [H|H].
  - rewrite (H1 H), H3 by (apply HW, H). rewrite HG. f_equal. apply flip_sum, HG.
  - rewrite (H2 H). apply H4. intros Q. apply H, HW, Q.
Qed.
Theorem wall_symmetric n k v data w ws b resc d neffa M K (prob : bool) (r : reflspec) lim f g : unchanged (mirrored k v) data ws -> one_bandwidth b -> weights_given w data ws ->
  kde_init n data w b false resc d None neffa None = Ok K -> kd_kernel K = Some (mkKernel d n M) -> symmetric n M -> posdef n M -> only n r k lim -> flip_limits v lim = lim ->
  kde_density K prob n (Some r) PNone = Ok f -> kde_density K prob n None PNone = Ok g -> forall x, f (mirrored k v x) = f x.
Proof.
  intros Hu Hb Hw HK HKK HS HP HO HL Hf Hg.
  assert (HB : built_kde n data ws d M None K) by (split; [exists w, b, false, resc, None, neffa; split; assumption|split; [exact HKK|split; assumption]]).
  assert (HA := sym_apart n k v data w ws b resc d neffa M K Hu Hb Hw HK HKK HS HP). assert (HO' : only n r k (flip_limits v lim)) by (rewrite HL; exact HO).
  apply (folded_flip n data ws data ws d M M K K prob r r k v lim f g f g HB HB HA HA HO HO' Hf Hg Hf Hg).
  exact (sym_mirror n k v data w ws b resc d neffa M K prob g ltac:(apply HO) Hu Hb Hw HK HKK HS HP Hg).
Qed.
Lemma apart_1 M : apart 1 M 0.
Proof. intros j Hj Hne. lia. Qed.
Lemma given_mirrored k v data w ws : weights_given w data ws -> weights_given w (map (mirrored k v) data) ws.
Proof. intros [[-> ->]| ->]; [left; rewrite map_length; split; reflexivity|right; reflexivity]. Qed.
Lemma only_1 (b : bnd) : only 1 [Some b] 0 b.
Proof. repeat split; [lia|]. intros [|[|j]] H; [contradiction|reflexivity|reflexivity]. Qed.
(** Two points with a boundary half way between them, and with the boundaries 0 and 1. *)
Lemma wall_case : exists K M f g h, unchanged (mirrored 0 (1 / 2)) [q00; q10] [1; 1] /\ one_bandwidth BwNone /\ weights_given WNone [q00; q10] [1; 1]
  /\ kde_init 1 [q00; q10] WNone BwNone false None Gaussian None None None = Ok K /\ kd_kernel K = Some (mkKernel Gaussian 1 M) /\ symmetric 1 M /\ posdef 1 M
  /\ only 1 [Some (Some (1 / 2), None)] 0 (Some (1 / 2), None) /\ one_limit (Some (1 / 2), None) (1 / 2) 1 /\ only 1 [Some (Some 0, Some 1)] 0 (Some 0, Some 1) /\ flip_limits (1 / 2) (Some 0, Some 1) = (Some 0, Some 1)
  /\ kde_density K false 1 (Some [Some (Some (1 / 2), None)]) PNone = Ok f /\ kde_density K false 1 None PNone = Ok g /\ kde_density K false 1 (Some [Some (Some 0, Some 1)]) PNone = Ok h
  /\ f q10 = 2 * g q10 /\ f q00 = 0 /\ h q00 = h q10.
Proof.
  destruct two_symmetric as (K & M & Hu & Hw & HK & HKK & HS & HP).
  assert (HB : built_kde 1 [q00; q10] [1; 1] Gaussian M None K) by (split; [exists WNone, BwNone, false, None, None, None; split; assumption|split; [exact HKK|split; assumption]]).
  destruct (density_refl_exists _ _ _ _ _ _ _ false [Some (Some (1 / 2), None)] HB eq_refl) as [f Hf]. destruct (density_refl_exists _ _ _ _ _ _ _ false [Some (Some 0, Some 1)] HB eq_refl) as [h Hh].
  destruct (density_plain_ex _ _ _ _ _ _ false HB) as (g0 & _ & Hg).
  assert (Hb : one_bandwidth BwNone) by (left; reflexivity). assert (HL : one_limit (Some (1 / 2), None) (1 / 2) 1) by (left; split; reflexivity).
  assert (HF : flip_limits (1 / 2) (Some 0, Some 1) = (Some 0, Some 1)) by (unfold flip_limits, flip; cbn [fst snd option_map]; repeat f_equal; lra).
  assert (E0 : mirrored 0 (1 / 2) q10 = q00) by (apply functional_extensionality; intros [|i]; unfold mirrored, q00, q10; cbn; lra).
  pose proof (wall_doubled _ _ _ _ _ _ _ _ _ _ _ _ false _ _ _ _ _ Hu Hb Hw HK HKK HS HP (only_1 _) HL Hf Hg) as D.
  pose proof (wall_symmetric _ _ _ _ _ _ _ _ _ _ _ _ false _ _ _ _ Hu Hb Hw HK HKK HS HP (only_1 _) HF Hh Hg q10) as S. rewrite E0 in S.
  exists K, M, f, (scaled false [1; 1] g0), h. repeat (split; [first [eassumption|apply only_1]|]). split; [|split; [|exact S]].
  - apply (D q10). intros l u Q. injection Q as <- <-. split; intros q Hq; [injection Hq as <-|discriminate]. unfold q10. cbn. lra.
  - apply (D q00). intros H. destruct (H _ _ eq_refl) as [A _]. specialize (A _ eq_refl). unfold q00 in A. cbn in A. lra.
Qed.

(** Mirrored data with mirrored boundaries in any dimensions (C156). *)
From Coq Require Import Permutation FunctionalExtensionality.
From Verif Require Import Base ModelLinAlg SpecLinAlg ModelKernels SpecKernels ModelKDE SpecKDE SpecLinear SpecReflected SpecSymmetric SpecEdgeSlope SpecSymmetricWall.
From Verif Require Import ProofLinAlg ProofIntegral ProofDensity ProofTop2 ProofTop3 ProofExamples ProofLinear ProofReflected ProofSlope ProofShape ProofSymmetric ProofCdfSymmetric ProofEdgeSlope ProofSymmetricWall.
Open Scope R_scope.
Notation length := List.length.

Definition sgn (k i : nat) : R := if Nat.eq_dec i k then -1 else 1.
Lemma sgn_sq k i : sgn k i * sgn k i = 1.
Proof. unfold sgn. destruct (Nat.eq_dec i k); lra. Qed.
Definition flip_mat (k : nat) (M : mat) : mat := fun i j => sgn k i * sgn k j * M i j.
Lemma flip_inverse n k M N : is_inverse n M N -> is_inverse n (flip_mat k M) (flip_mat k N).
Proof.
  intros H i j Hi Hj. destruct (H i j Hi Hj) as [H1 H2].
  assert (E : forall A B : mat, rsum n (fun l => flip_mat k A i l * flip_mat k B l j) = sgn k i * sgn k j * rsum n (fun l => A i l * B l j)).
  { intros A B. rewrite <- rsum_scal. apply rsum_ext. intros l Hl. unfold flip_mat. transitivity (sgn k l * sgn k l * (sgn k i * sgn k j * (A i l * B l j))); [ring|]. rewrite sgn_sq. ring. }
  rewrite !E, H1, H2. assert (Q : sgn k i * sgn k j * ident i j = ident i j) by (unfold ident; destruct (Nat.eqb_spec i j) as [->|_]; [rewrite sgn_sq|]; ring). split; exact Q.
Qed.
Lemma mirrored_diff k v (x y : pt) i : psub (mirrored k v x) (mirrored k v y) i = sgn k i * psub x y i.
Proof. unfold psub, mirrored, sgn. destruct (Nat.eq_dec i k); ring. Qed.
Lemma flip_sums d n k v N wd x : spec_sum d n (flip_mat k N) (on_fst (mirrored k v) wd) (mirrored k v x) = spec_sum d n N wd x.
Proof.
  unfold spec_sum, on_fst. rewrite sumf_map. cbn [fst snd]. apply sumf_ext. intros [p w] _. cbn [fst snd]. f_equal. f_equal. unfold quad. apply rsum_ext. intros i Hi. apply rsum_ext. intros j Hj.
  rewrite !mirrored_diff. unfold flip_mat. transitivity ((sgn k i * sgn k i) * (sgn k j * sgn k j) * (psub x p i * N i j * psub x p j)); [ring|]. rewrite !sgn_sq. ring.
Qed.
Lemma mirrored_comm i k u v (x : pt) : i <> k -> mirrored i u (mirrored k v x) = mirrored k v (mirrored i u x).
Proof. intros H. apply functional_extensionality. intros j. unfold mirrored. destruct (Nat.eq_dec j i), (Nat.eq_dec j k); try reflexivity. congruence. Qed.
Lemma flip_image d n k v N wd x i u : i <> k -> spec_sum d n (flip_mat k N) (mirrored_data i u (on_fst (mirrored k v) wd)) (mirrored k v x) = spec_sum d n N (mirrored_data i u wd) x.
Proof.
  intros H. rewrite <- (flip_sums d n k v N (mirrored_data i u wd) x). f_equal. unfold mirrored_data, on_fst. rewrite !map_map. apply map_ext. intros [p w]. cbn [fst snd]. rewrite mirrored_comm by exact H. reflexivity.
Qed.
Lemma flip_image_at d n k v N wd x u : spec_sum d n (flip_mat k N) (mirrored_data k (flip v u) (on_fst (mirrored k v) wd)) (mirrored k v x) = spec_sum d n N (mirrored_data k u wd) x.
Proof.
  rewrite <- (flip_sums d n k v N (mirrored_data k u wd) x). f_equal. unfold mirrored_data, on_fst. rewrite !map_map. apply map_ext. intros [p w]. cbn [fst snd]. f_equal. apply mirror_twice. unfold flip. ring.
Qed.
Lemma flip_images d n k v N wd x r r' i : flipped_walls k v r r' ->
  sumf (fun u => spec_sum d n (flip_mat k N) (mirrored_data i u (on_fst (mirrored k v) wd)) (mirrored k v x)) (boundaries (nth i r' None)) = sumf (fun u => spec_sum d n N (mirrored_data i u wd) x) (boundaries (nth i r None)).
Proof.
  intros (_ & E & E'). destruct (Nat.eq_dec i k) as [->|H].
  - rewrite E. destruct (nth k r None) as [[[lo|] [hi|]]|]; unfold flip_limits, sumf; cbn [fst snd option_map boundaries app map lsum]; rewrite ?flip_image_at; ring.
  - rewrite (E' i H). apply sumf_ext. intros u _. apply flip_image, H.
Qed.
Lemma flip_within k v r r' x i : flipped_walls k v r r' -> (within r' (mirrored k v x) i <-> within r x i).
Proof.
  intros (_ & E & E'). destruct (Nat.eq_dec i k) as [->|H].
  - unfold within. rewrite E, mirrored_at. destruct (nth k r None) as [[[lo|] [hi|]]|]; unfold flip_limits, flip; cbn [fst snd option_map]; split; intros H l u Q; try discriminate Q; injection Q as <- <-;
      specialize (H _ _ eq_refl); destruct H as [Ha Hb]; split; intros q Hq; try discriminate; injection Hq as <-;
      try (pose proof (Ha _ eq_refl)); try (pose proof (Hb _ eq_refl)); lra.
  - unfold within. rewrite (E' i H), mirrored_other by exact H. reflexivity.
Qed.
Lemma flip_within_from k v r r' x i : flipped_walls k v r r' -> (within_from r' (mirrored k v x) i <-> within_from r x i).
Proof. intros H. unfold within_from. split; intros A j Hj; specialize (A j Hj); [rewrite <- (flip_within k v r r' x j H)|rewrite (flip_within k v r r' x j H)]; exact A. Qed.
Lemma flip_cov k v wd C C' i j : np_cov wd = Some C -> np_cov (on_fst (mirrored k v) wd) = Some C' -> C' i j = flip_mat k C i j.
Proof.
  intros HC HC'. unfold np_cov in HC, HC'. rewrite cov_fact_fst in HC'. destruct (Rleb_spec (cov_fact wd) 0) as [H|H]; [discriminate|].
  assert (HS : sumf (snd (B := R)) wd <> 0). { intros E. apply H. unfold cov_fact. rewrite E. unfold Rdiv. rewrite Rinv_0. lra. }
  injection HC as <-. injection HC' as <-. unfold flip_mat. rewrite !mirror_mean by exact HS. unfold on_fst. rewrite sumf_map. cbn [fst snd].
  rewrite (sumf_ext _ (fun x : pt * R => sgn k i * sgn k j * (snd x * (fst x i - wmean wd i) * (fst x j - wmean wd j)))).
  - rewrite sumf_scal. unfold Rdiv. ring.
  - intros [p w] _. cbn [fst snd]. pose proof (mirrored_diff k v p (wmean wd) i) as A. pose proof (mirrored_diff k v p (wmean wd) j) as B. unfold psub in A, B. rewrite A, B. ring.
Qed.
Lemma flip_kernel n k v data w b resc d neffa M M' K K' : kde_init n data w b false resc d None neffa None = Ok K -> kd_kernel K = Some (mkKernel d n M) ->
  kde_init n (map (mirrored k v) data) w b false resc d None neffa None = Ok K' -> kd_kernel K' = Some (mkKernel d n M') -> forall i j, M' i j = flip_mat k M i j.
Proof.
  intros HK HKK HK' HKK' i j. unfold kde_init in HK, HK'. rewrite map_length in HK'. destruct (Nat.eqb (length data) 0); [discriminate|].
  destruct (check_weights (length data) w) as [ow|]; cbn [bind] in HK, HK'; [|discriminate]. destruct (set_bandwidth _ n false b resc) as [bw|]; cbn [bind] in HK, HK'; [|discriminate].
  injection HK as <-. injection HK' as <-. cbn [kd_kernel] in *. unfold wdata_of in *. assert (EW : wlist (map (mirrored k v) data) ow = wlist data ow) by (destruct ow; cbn [wlist]; [reflexivity|apply map_map]).
  rewrite EW, combine_on_fst in HKK'. destruct (np_cov (combine data (wlist data ow))) as [C|] eqn:EC; [|discriminate]. destruct (np_cov (on_fst _ _)) as [C'|] eqn:EC'; [|discriminate].
  unfold kernel_init in *. injection HKK as <-. injection HKK' as <-. unfold kernel_matrix. rewrite (flip_cov k v _ C C' i j EC EC'). unfold flip_mat. ring.
Qed.
Lemma rsum_zeros n (t : nat -> R) : (forall i, t i = 0) -> rsum n t = 0.
Proof. intros H. transitivity (0 * rsum n t); [|ring]. rewrite <- rsum_scal. apply rsum_ext. intros i _. rewrite H. ring. Qed.
Lemma prof_at_0 d n N (x : pt) : 0 < spec_prof d (quad n N (psub x x)).
Proof.
  assert (E : quad n N (psub x x) = 0). { unfold quad. apply rsum_zeros. intros i. apply rsum_zeros. intros j. unfold psub. ring. }
  rewrite E. unfold spec_prof. destruct d; [apply exp_pos| | |]; (destruct (Rle_dec 0 1); [|lra]); lra.
Qed.
Theorem flip_walls n k v data w ws b resc d neffa M M' K K' (prob : bool) (r r' : reflspec) f f' : one_bandwidth b -> weights_given w data ws -> (k < n)%nat ->
  kde_init n data w b false resc d None neffa None = Ok K -> kd_kernel K = Some (mkKernel d n M) -> symmetric n M -> posdef n M ->
  kde_init n (map (mirrored k v) data) w b false resc d None neffa None = Ok K' -> kd_kernel K' = Some (mkKernel d n M') -> symmetric n M' -> posdef n M' ->
  length r = n -> flipped_walls k v r r' -> kde_density K prob n (Some r) PNone = Ok f -> kde_density K' prob n (Some r') PNone = Ok f' -> forall x, f' (mirrored k v x) = f x.
Proof.
  intros Hb Hw Hk HK HKK HS HP HK' HKK' HS' HP' HL HF Hf Hf'.
  assert (HB : built_kde n data ws d M None K) by (split; [exists w, b, false, resc, None, neffa; split; assumption|split; [exact HKK|split; assumption]]).
  assert (HB' : built_kde n (map (mirrored k v) data) ws d M' None K') by (split; [exists w, b, false, resc, None, neffa; split; [apply given_mirrored, Hw|exact HK']|split; [exact HKK'|split; assumption]]).
  destruct (density_plain_ex _ _ _ _ _ _ prob HB) as (g0 & _ & Hg). destruct (density_plain_ex _ _ _ _ _ _ prob HB') as (g0' & _ & Hg').
  pose proof (linear_change_density n _ 1 (mirror_linear n k v Hk) data w b resc d neffa prob Hb) as HR. rewrite HK, HK' in HR. cbn [bind] in HR. rewrite Hg, Hg' in HR. cbn [res_rel] in HR.
  assert (Hn : (1 <= n)%nat) by lia. destruct (as_sum _ _ _ _ _ _ _ _ Hn HB Hg) as (N & _ & HN & _ & _ & _ & _).
  assert (HN' : is_inverse n M' (flip_mat k N)).
  { apply (inverse_agree n (flip_mat k M) (flip_mat k N)); [|intros i j _ _; reflexivity|apply flip_inverse, HN]. intros i j _ _. symmetry. apply (flip_kernel n k v data w b resc d neffa M M' K K' HK HKK HK' HKK'). }
  destruct (as_textbook _ _ _ _ _ _ _ _ _ Hn HB HN Hg) as (Z & HZ & HI & Hpw & Hm & Eg). destruct (as_textbook _ _ _ _ _ _ _ _ _ Hn HB' HN' Hg') as (Z' & HZ' & HI' & _ & _ & Eg').
  destruct (built_inv _ _ _ _ _ _ _ HB) as (_ & _ & _ & _ & _ & Hl & Hnn & _).
  assert (EZ : Z' = Z).
  { assert (HX : exists p u, In (p, u) (combine data ws) /\ 0 < u).
    { apply Classical_Prop.NNPP. intros HX. assert (Q : lsum ws <= 0); [|lra]. clear -Hl HX Hnn. revert data Hl HX. induction ws as [|u ws IH]; intros [|p data] Hl HX; cbn [lsum] in *; try lra; try discriminate.
      assert (u <= 0) by (apply Rnot_lt_le; intros Hu; apply HX; exists p, u; split; [left; reflexivity|exact Hu]).
      assert (lsum ws <= 0); [|lra]. apply (IH ltac:(intros q Hq; apply Hnn; right; exact Hq) data); [injection Hl; auto|]. intros (q & c & Hq & Hc). apply HX. exists q, c. split; [right; exact Hq|exact Hc]. }
    destruct HX as (p & u & Hin & Hu). pose proof (HR p) as E. rewrite Eg, Eg', combine_on_fst, flip_sums in E.
    assert (Hs : 0 < spec_sum d n N (combine data ws) p). { apply spec_sum_pos; [intros q c Hq; apply Hnn, (in_combine_r _ _ _ _ Hq)|]. exists p, u. split; [exact Hin|split; [exact Hu|apply prof_at_0]]. }
    set (S := spec_sum d n N (combine data ws) p) in *. set (A := mass prob ws / lsum ws) in *. assert (HA : 0 < A) by (apply Rdiv_lt_0_compat; assumption).
    assert (E2 : A * S * Z = A * S * Z'). { transitivity (A / Z' * S * 1 * (Z * Z')); [field; lra|]. rewrite E. field. lra. }
    apply Rmult_eq_reg_l in E2; [symmetry; exact E2|]. assert (0 < A * S) by (apply Rmult_lt_0_compat; assumption). lra. }
  assert (HL' : length r' = n) by (destruct HF as [E _]; rewrite E; exact HL).
  destruct (top_reflected n data ws d M None K N prob r Hn HB HN HL) as (Y & h & _ & HIY & Hh & Hv). rewrite Hf in Hh. injection Hh as <-.
  destruct (top_reflected n _ ws d M' None K' (flip_mat k N) prob r' Hn HB' HN' HL') as (Y' & h' & _ & HIY' & Hh' & Hv'). rewrite Hf' in Hh'. injection Hh' as <-.
  rewrite (tintN_unique n _ (fun _ => 0) _ _ (HIY _) (HI _)) in Hv. rewrite (tintN_unique n _ (fun _ => 0) _ _ (HIY' _) (HI' _)), EZ in Hv'.
  intros x. destruct (Hv x) as (s0 & s & E & A0 & B0 & Hs). destruct (Hv' (mirrored k v x)) as (t0 & t & E' & A0' & B0' & Ht). rewrite E, E'. rewrite combine_on_fst in *.
  assert (Q0 : t0 = s0).
  { destruct (Classical_Prop.classic (within_from r x 0)) as [C|C].
    - rewrite (A0 C), A0' by (apply (flip_within_from k v r r' x 0 HF), C). apply flip_sums.
    - rewrite (B0 C), B0'; [reflexivity|]. intros C'. apply C, (flip_within_from k v r r' x 0 HF), C'. }
  assert (Q : rsum n t = rsum n s).
  { apply rsum_ext. intros i Hi. destruct (Hs i Hi) as [A1 B1]. destruct (Ht i Hi) as [A2 B2]. destruct (Classical_Prop.classic (within_from r x i)) as [C|C].
    - rewrite (A1 C), A2 by (apply (flip_within_from k v r r' x i HF), C). apply flip_images, HF.
    - rewrite (B1 C), B2; [reflexivity|]. intros C'. apply C, (flip_within_from k v r r' x i HF), C'. }
  rewrite Q0, Q. reflexivity.
Qed.

(** Three points at the corners of a triangle, with boundaries in both dimensions. *)
Lemma flip_case : exists K M K' M' f f', one_bandwidth BwNone /\ weights_given WNone [q00; q10; q01] [1; 1; 1]
  /\ kde_init 2 [q00; q10; q01] WNone BwNone false None Gaussian None None None = Ok K /\ kd_kernel K = Some (mkKernel Gaussian 2 M) /\ symmetric 2 M /\ posdef 2 M
  /\ kde_init 2 (map (mirrored 0 3) [q00; q10; q01]) WNone BwNone false None Gaussian None None None = Ok K' /\ kd_kernel K' = Some (mkKernel Gaussian 2 M') /\ symmetric 2 M' /\ posdef 2 M'
  /\ flipped_walls 0 3 [Some (Some (-1), None); Some (Some 0, Some 2)] [Some (None, Some (2 * 3 - -1)); Some (Some 0, Some 2)]
  /\ kde_density K false 2 (Some [Some (Some (-1), None); Some (Some 0, Some 2)]) PNone = Ok f /\ kde_density K' false 2 (Some [Some (None, Some (2 * 3 - -1)); Some (Some 0, Some 2)]) PNone = Ok f'
  /\ f' (mirrored 0 3 q10) = f q10.
Proof.
  assert (HG : weights_given WNone [q00; q10; q01] [1; 1; 1]) by (left; split; reflexivity). assert (HG' : weights_given WNone (map (mirrored 0 3) [q00; q10; q01]) [1; 1; 1]) by (left; split; reflexivity).
  assert (Hz : Nat.lt 2 (nnz [1; 1; 1])) by (unfold nnz; cbn; destruct (Reqb_spec 1 0); [lra|]; cbn; lia).
  destruct (default_ok 2 [q00; q10; q01] WNone [1; 1; 1] Gaussian None) as (K & M & N & HK & HKK & HS & HP & _); try assumption; [discriminate|reflexivity|intros v [<-|[<-|[<-|[]]]]; lra| | |]; [lia| |].
  { intros (v & c & (i & Hi & Hv) & H). pose proof (H q00 1 ltac:(cbn; tauto) ltac:(lra)) as A. pose proof (H q10 1 ltac:(cbn; tauto) ltac:(lra)) as B. pose proof (H q01 1 ltac:(cbn; tauto) ltac:(lra)) as C.
    unfold q00, q10, q01 in A, B, C. cbn in A, B, C. apply Hv. destruct i as [|[|i]]; [lra|lra|lia]. }
  destruct (default_ok 2 (map (mirrored 0 3) [q00; q10; q01]) WNone [1; 1; 1] Gaussian None) as (K' & M' & N' & HK' & HKK' & HS' & HP' & _); try assumption; [discriminate|reflexivity|intros v [<-|[<-|[<-|[]]]]; lra| | |]; [lia| |].
  { intros (v & c & (i & Hi & Hv) & H). pose proof (H (mirrored 0 3 q00) 1 ltac:(cbn; tauto) ltac:(lra)) as A. pose proof (H (mirrored 0 3 q10) 1 ltac:(cbn; tauto) ltac:(lra)) as B. pose proof (H (mirrored 0 3 q01) 1 ltac:(cbn; tauto) ltac:(lra)) as C.
    unfold mirrored, q00, q10, q01 in A, B, C. cbn in A, B, C. apply Hv. destruct i as [|[|i]]; [lra|lra|lia]. }
  assert (HB : built_kde 2 [q00; q10; q01] [1; 1; 1] Gaussian M None K) by (split; [exists WNone, BwNone, false, None, None, None; split; assumption|split; [exact HKK|split; assumption]]).
  assert (HB' : built_kde 2 (map (mirrored 0 3) [q00; q10; q01]) [1; 1; 1] Gaussian M' None K') by (split; [exists WNone, BwNone, false, None, None, None; split; assumption|split; [exact HKK'|split; assumption]]).
  destruct (density_refl_exists _ _ _ _ _ _ _ false [Some (Some (-1), None); Some (Some 0, Some 2)] HB eq_refl) as [f Hf]. destruct (density_refl_exists _ _ _ _ _ _ _ false [Some (None, Some (2 * 3 - -1)); Some (Some 0, Some 2)] HB' eq_refl) as [f' Hf'].
  assert (Hb : one_bandwidth BwNone) by (left; reflexivity).
  assert (HF : flipped_walls 0 3 [Some (Some (-1), None); Some (Some 0, Some 2)] [Some (None, Some (2 * 3 - -1)); Some (Some 0, Some 2)]) by (split; [reflexivity|split; [reflexivity|intros [|i] H; [contradiction|reflexivity]]]).
  exists K, M, K', M', f, f'. repeat (split; [eassumption|]).
  exact (flip_walls 2 0 3 _ _ _ _ _ _ _ _ _ _ _ false [Some (Some (-1), None); Some (Some 0, Some 2)] _ _ _ Hb HG ltac:(lia) HK HKK HS HP HK' HKK' HS' HP' eq_refl HF Hf Hf' q10).
Qed.

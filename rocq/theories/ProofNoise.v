(** The noise of the kernels against the kernels: averages over uniform numbers, one dimension. *)
From Coquelicot Require Import Coquelicot.
From Coq Require Import FunctionalExtensionality.
From Verif Require Import Base ModelLinAlg SpecLinAlg ProofLinAlg ModelKernels SpecIntegral ProofIntegral ProofWallis ProofKernels ProofMoments ModelResample SpecNoise.
Open Scope R_scope.

(** * Means as iterated integrals *)
Lemma tintN_ext_base k f g base l : (forall x, (forall i, (k <= i)%nat -> x i = base i) -> f x = g x) -> is_tintN k f base l -> is_tintN k g base l.
Proof.
  revert base l. induction k as [|k IH]; intros base l H; cbn [is_tintN].
  - intros <-. symmetry. apply H. reflexivity.
  - intros [h [H1 H2]]. exists h. split; [|exact H2]. intros t. apply IH with (2 := H1 t). intros x Hx. apply H. intros i Hi.
    rewrite Hx by lia. apply upd_other. lia.
Qed.
Lemma window_tint lo hi h l : lo <= hi -> is_RInt h lo hi l -> is_tint (fun t => if andb (Rleb lo t) (Rleb t hi) then h t else 0) l.
Proof.
  intros Hl H. apply tint_compact with lo hi; [exact Hl| | |].
  - apply is_RInt_ext with (2 := H). intros x Hx. rewrite Rmin_left, Rmax_right in Hx by lra.
    destruct (Rleb_spec lo x); [|lra]. destruct (Rleb_spec x hi); [reflexivity|lra].
  - intros x Hx. destruct (Rleb_spec lo x); [lra|reflexivity].
  - intros x Hx. destruct (Rleb_spec lo x); [|reflexivity]. destruct (Rleb_spec x hi); [lra|reflexivity].
Qed.
Lemma in_cube_S k lo hi u : in_cube (S k) lo hi u = andb (in_cube k lo hi u) (andb (Rleb lo (u k)) (Rleb (u k) hi)).
Proof. unfold in_cube. rewrite seq_S, forallb_app. cbn [forallb]. rewrite Bool.andb_true_r. reflexivity. Qed.
Fixpoint is_mean (k : nat) (lo hi : R) (f : pt -> R) (base : pt) (m : R) : Prop :=
  match k with
  | O => f base = m
  | S k' => exists g : R -> R, (forall t, lo <= t <= hi -> is_mean k' lo hi f (upd base k' t) (g t)) /\ is_RInt g lo hi ((hi - lo) * m)
  end.
Lemma is_mean_tintN k lo hi f base m : lo < hi -> is_mean k lo hi f base m ->
  is_tintN k (fun u => if in_cube k lo hi u then f u / (hi - lo) ^ k else 0) base m.
Proof.
  intros Hl. revert base m. induction k as [|k IH]; intros base m; cbn [is_mean is_tintN].
  - intros <-. cbn. field.
  - intros [g [Hg HI]]. exists (fun t => if andb (Rleb lo t) (Rleb t hi) then g t / (hi - lo) else 0). split.
    + intros t. destruct (andb (Rleb lo t) (Rleb t hi)) eqn:E.
      * assert (Ht : lo <= t <= hi). { destruct (Rleb_spec lo t); [|discriminate E]. destruct (Rleb_spec t hi); [lra|discriminate E]. }
        pose proof (tintN_scal k (/ (hi - lo)) _ _ _ (IH _ _ (Hg t Ht))) as H.
        replace (g t / (hi - lo)) with (/ (hi - lo) * g t) by (unfold Rdiv; ring).
        apply tintN_ext_base with (2 := H). intros x Hx. rewrite in_cube_S. rewrite (Hx k (le_n _)), upd_same, E, Bool.andb_true_r.
        destruct (in_cube k lo hi x); [|ring]. cbn [pow]. field. split; [|lra]. apply pow_nonzero; lra.
      * pose proof (tintN_zero k (upd base k t)) as H. apply tintN_ext_base with (2 := H). intros x Hx. rewrite in_cube_S, (Hx k (le_n _)), upd_same, E, Bool.andb_false_r. reflexivity.
    + apply window_tint; [lra|]. apply (is_RInt_scal (V := R_NormedModule)) with (k := / (hi - lo)) in HI.
      replace m with (scal (/ (hi - lo)) ((hi - lo) * m) : R) by (unfold scal; cbn; unfold mult; cbn; field; lra).
      apply is_RInt_ext with (2 := HI). intros x _. unfold scal; cbn; unfold mult; cbn. field. lra.
Qed.
Lemma uniform_mean_of k lo hi f m : lo < hi -> (forall base, is_mean k lo hi f base m) -> uniform_mean k lo hi f m.
Proof. intros Hl H base. apply is_mean_tintN; [exact Hl|apply H]. Qed.
Lemma uniform_mean_ext k lo hi f g m : (forall u, in_cube k lo hi u = true -> f u = g u) -> uniform_mean k lo hi f m -> uniform_mean k lo hi g m.
Proof.
  intros H Hm base. apply tintN_ext with (2 := Hm base). intros u. destruct (in_cube k lo hi u) eqn:E; [|reflexivity]. rewrite H by exact E. reflexivity.
Qed.
Lemma uniform_mean_unique k lo hi f m m' : uniform_mean k lo hi f m -> uniform_mean k lo hi f m' -> m = m'.
Proof. intros H H'. exact (tintN_unique _ _ _ _ _ (H (fun _ => 0)) (H' (fun _ => 0))). Qed.
Lemma uniform_mean_scal k lo hi c f m : uniform_mean k lo hi f m -> uniform_mean k lo hi (fun u => c * f u) (c * m).
Proof. intros H base. apply tintN_ext with (2 := tintN_scal k c _ _ _ (H base)). intros u. destruct (in_cube k lo hi u); unfold Rdiv; ring. Qed.
Lemma uniform_mean_plus k lo hi f g a b : uniform_mean k lo hi f a -> uniform_mean k lo hi g b -> uniform_mean k lo hi (fun u => f u + g u) (a + b).
Proof. intros H1 H2 base. apply tintN_ext with (2 := tintN_plus k _ _ _ _ _ (H1 base) (H2 base)). intros u. destruct (in_cube k lo hi u); unfold Rdiv; ring. Qed.
Lemma uniform_mean_zero k lo hi : uniform_mean k lo hi (fun _ => 0) 0.
Proof. intros base. apply tintN_ext with (2 := tintN_zero k base). intros u. destruct (in_cube k lo hi u); unfold Rdiv; ring. Qed.
Lemma uniform_mean_rsum k lo hi p (f : nat -> pt -> R) (m : nat -> R) : (forall i, (i < p)%nat -> uniform_mean k lo hi (f i) (m i)) ->
  uniform_mean k lo hi (fun u => rsum p (fun i => f i u)) (rsum p m).
Proof.
  induction p as [|p IH]; intros H; cbn [rsum]; [apply uniform_mean_zero|].
  apply uniform_mean_plus; [apply IH; intros; apply H; lia|apply H; lia].
Qed.
(** Products of functions of one number each. *)
Lemma mean_rprod k lo hi (h : nat -> R -> R) (mu : nat -> R) : (forall i, (i < k)%nat -> is_RInt (h i) lo hi ((hi - lo) * mu i)) ->
  forall base, is_mean k lo hi (fun u => rprod k (fun i => h i (u i))) base (rprod k mu).
Proof.
  intros H.
  assert (A : forall p, (p <= k)%nat -> forall base, is_mean p lo hi (fun u => rprod k (fun i => h i (u i))) base
            (rprod k (fun i => if Nat.ltb i p then mu i else h i (base i)))).
  { induction p as [|p IH]; intros Hp base; cbn [is_mean].
    - f_equal.
    - exists (fun t => rprod k (fun i => if Nat.ltb i p then mu i else h i (upd base p t i))). split; [intros t _; apply IH; lia|].
      assert (E : exists c, forall s, rprod k (fun i => if Nat.ltb i p then mu i else if Nat.eqb i p then s else h i (base i)) = c * s).
      { clear - Hp. induction k as [|q IHq]; [lia|]. destruct (Nat.eq_dec p q) as [->|].
        - exists (rprod q (fun i => if Nat.ltb i q then mu i else 0)). intros s. cbn [rprod]. rewrite Nat.ltb_irrefl, Nat.eqb_refl. f_equal.
          apply rprod_ext. intros i Hi. apply Nat.ltb_lt in Hi. rewrite Hi. reflexivity.
        - destruct IHq as [c Hc]; [lia|]. exists (c * h q (base q)). intros s. cbn [rprod]. rewrite Hc. destruct (Nat.ltb_spec q p); [lia|].
          destruct (Nat.eqb_spec q p); [lia|]. ring. }
      destruct E as [c Hc].
      replace (rprod k (fun i => if Nat.ltb i (S p) then mu i else h i (base i))) with (c * mu p).
      2:{ rewrite <- Hc. apply rprod_ext. intros i _. destruct (Nat.ltb_spec i p), (Nat.ltb_spec i (S p)); try lia; try reflexivity.
          - destruct (Nat.eqb_spec i p); [subst; reflexivity|lia].
          - destruct (Nat.eqb_spec i p); [lia|reflexivity]. }
      pose proof (is_RInt_scal (V := R_NormedModule) _ _ _ c _ (H p ltac:(lia))) as HI.
      replace ((hi - lo) * (c * mu p)) with (scal c ((hi - lo) * mu p) : R) by (unfold scal; cbn; unfold mult; cbn; ring).
      apply is_RInt_ext with (2 := HI). intros t _. transitivity (c * h p t); [reflexivity|]. rewrite <- Hc. apply rprod_ext. intros i _.
      destruct (Nat.ltb i p); [reflexivity|]. unfold upd. destruct (Nat.eqb_spec i p); [subst; reflexivity|reflexivity]. }
  intros base. specialize (A k (le_n _) base). replace (rprod k mu) with (rprod k (fun i => if Nat.ltb i k then mu i else h i (base i))); [exact A|].
  apply rprod_ext. intros i Hi. apply Nat.ltb_lt in Hi. rewrite Hi. reflexivity.
Qed.

(** * Three uniform numbers *)
Lemma antideriv_exists (g : R -> R) : (forall x, continuous g x) -> exists G : R -> R, forall x, is_derive G x (g x).
Proof.
  intros Hg. exists (fun x => RInt g 0 x). intros x. apply (is_derive_RInt (V := R_NormedModule) g (fun x => RInt g 0 x) 0 x); [|apply Hg].
  exists (mkposreal 1 Rlt_0_1). intros y _. apply (RInt_correct (V := R_CompleteNormedModule)). apply (ex_RInt_continuous (V := R_CompleteNormedModule)). intros; apply Hg.
Qed.
Lemma ftc (F f : R -> R) a b : (forall x, is_derive F x (f x)) -> (forall x, continuous f x) -> is_RInt f a b (F b - F a).
Proof. intros HF Hf. apply (is_RInt_derive (V := R_CompleteNormedModule)); intros; [apply HF|apply Hf]. Qed.
Lemma cont_mult (f g : R -> R) x : continuous f x -> continuous g x -> continuous (fun t => f t * g t) x.
Proof. intros Hf Hg. apply (continuous_mult (K := R_AbsRing) f g x Hf Hg). Qed.
Lemma cont_plus (f g : R -> R) x : continuous f x -> continuous g x -> continuous (fun t => f t + g t) x.
Proof. intros Hf Hg. apply (continuous_plus (V := R_NormedModule) f g x Hf Hg). Qed.
Lemma cont_minus (f g : R -> R) x : continuous f x -> continuous g x -> continuous (fun t => f t - g t) x.
Proof. intros Hf Hg. apply (continuous_minus (V := R_NormedModule) f g x Hf Hg). Qed.
Lemma cont_of_derive (f : R -> R) d x : is_derive f x d -> continuous f x.
Proof. intros H. apply (ex_derive_continuous (V := R_NormedModule)). exists d. exact H. Qed.
Lemma cont_c (c : R) (x : R) : continuous (fun _ : R => c) x.
Proof. apply continuous_const. Qed.
Lemma cont_id (x : R) : continuous (fun t : R => t) x.
Proof. apply continuous_id. Qed.
Ltac cont := cbv beta; lazymatch goal with
  | |- continuous (fun t => t) _ => apply cont_id
  | |- continuous (fun _ => ?c) _ => apply cont_c
  | |- continuous (fun t => @?f t * @?g t) _ => apply (cont_mult f g); cont
  | |- continuous (fun t => @?f t - @?g t) _ => apply (cont_minus f g); cont
  | |- continuous (fun t => @?f t + @?g t) _ => apply (cont_plus f g); cont
  | _ => idtac
  end.
Lemma der_mult (f g : R -> R) (x a b : R) : is_derive f x a -> is_derive g x b -> is_derive (fun t => f t * g t) x (a * g x + f x * b).
Proof. intros Hf Hg. apply (is_derive_mult f g x a b Hf Hg). intros; apply Rmult_comm. Qed.
Lemma der_plus (f g : R -> R) (x a b : R) : is_derive f x a -> is_derive g x b -> is_derive (fun t => f t + g t) x (a + b).
Proof. intros Hf Hg. apply (is_derive_plus (V := R_NormedModule) f g x a b Hf Hg). Qed.
Lemma der_minus (f g : R -> R) (x a b : R) : is_derive f x a -> is_derive g x b -> is_derive (fun t => f t - g t) x (a - b).
Proof. intros Hf Hg. apply (is_derive_minus (V := R_NormedModule) f g x a b Hf Hg). Qed.
Lemma der_c (c x : R) : is_derive (fun _ : R => c) x 0.
Proof. apply (is_derive_const (K := R_AbsRing) (V := R_NormedModule)). Qed.
Lemma der_id (x : R) : is_derive (fun t : R => t) x 1.
Proof. apply (is_derive_id (K := R_AbsRing)). Qed.
Lemma der_eq (f : R -> R) (x a b : R) : is_derive f x a -> a = b -> is_derive f x b.
Proof. intros H <-. exact H. Qed.
Ltac der := cbv beta; lazymatch goal with
  | |- is_derive (fun t => t) _ _ => apply der_id
  | |- is_derive (fun _ => ?c) _ _ => apply der_c
  | |- is_derive (fun t => @?f t * @?g t) _ _ => apply (der_mult f g); der
  | |- is_derive (fun t => @?f t - @?g t) _ _ => apply (der_minus f g); der
  | |- is_derive (fun t => @?f t + @?g t) _ _ => apply (der_plus f g); der
  | _ => idtac
  end.

Lemma median3_clamp c b a : b <= a -> median3 c b a = Rmax b (Rmin a c).
Proof.
  intros H. unfold median3. unfold Rmax, Rmin. repeat destruct (Rle_dec _ _); lra.
Qed.
Lemma median3_swap c b a : median3 c b a = median3 c a b.
Proof. unfold median3, Rmax, Rmin. repeat destruct (Rle_dec _ _); lra. Qed.
Lemma inner_mean (g G : R -> R) a b : (forall x, is_derive G x (g x)) -> (forall x, continuous g x) -> -1 <= b -> b <= a -> a <= 1 ->
  is_RInt (fun c => g (median3 c b a)) (-1) 1 ((b + 1) * g b + (G a - G b) + (1 - a) * g a).
Proof.
  intros HG Hg Hb Hba Ha.
  assert (E1 : is_RInt (fun c => g (median3 c b a)) (-1) b ((b + 1) * g b)).
  { replace ((b + 1) * g b) with (scal (b - -1) (g b) : R) by (unfold scal; cbn; unfold mult; cbn; ring).
    apply is_RInt_ext with (2 := is_RInt_const (V := R_NormedModule) (-1) b (g b)). intros c Hc. rewrite Rmin_left, Rmax_right in Hc by lra.
    rewrite median3_clamp by lra. f_equal. unfold Rmax, Rmin. repeat destruct (Rle_dec _ _); lra. }
  assert (E2 : is_RInt (fun c => g (median3 c b a)) b a (G a - G b)).
  { apply is_RInt_ext with (2 := ftc G g b a HG Hg). intros c Hc. rewrite Rmin_left, Rmax_right in Hc by lra.
    rewrite median3_clamp by lra. f_equal. unfold Rmax, Rmin. repeat destruct (Rle_dec _ _); lra. }
  assert (E3 : is_RInt (fun c => g (median3 c b a)) a 1 ((1 - a) * g a)).
  { replace ((1 - a) * g a) with (scal (1 - a) (g a) : R) by (unfold scal; cbn; unfold mult; cbn; ring).
    apply is_RInt_ext with (2 := is_RInt_const (V := R_NormedModule) a 1 (g a)). intros c Hc. rewrite Rmin_left, Rmax_right in Hc by lra.
    rewrite median3_clamp by lra. f_equal. unfold Rmax, Rmin. repeat destruct (Rle_dec _ _); lra. }
  exact (is_RInt_Chasles _ _ _ _ _ _ (is_RInt_Chasles _ _ _ _ _ _ E1 E2) E3).
Qed.
Lemma median_mean (g P : R -> R) : (forall x, continuous g x) -> (forall x, is_derive P x ((1 - x * x) * g x)) ->
  uniform_mean 3 (-1) 1 (fun u => g (median3 (u 0%nat) (u 1%nat) (u 2%nat))) (3 / 4 * (P 1 - P (-1))).
Proof.
  intros Hg HP. destruct (antideriv_exists g Hg) as [G HG].
  destruct (antideriv_exists (fun s => (1 + s) * g s)) as [H HH]; [intros; cont; apply Hg|].
  destruct (antideriv_exists (fun s => (1 - s) * g s)) as [K HK]; [intros; cont; apply Hg|].
  assert (CG : forall x, continuous G x) by (intros x; apply (cont_of_derive G (g x)), HG).
  assert (CH : forall x, continuous H x) by (intros x; apply (cont_of_derive H ((1 + x) * g x)), HH).
  assert (CK : forall x, continuous K x) by (intros x; apply (cont_of_derive K ((1 - x) * g x)), HK).
  apply uniform_mean_of; [lra|]. intros base. cbn [is_mean].
  exists (fun a => (2 * (1 - a * a) * g a + 2 * (H a - H (-1)) + 2 * (K 1 - K a)) / 4). split.
  - intros a Ha.
    exists (fun b => if Rle_dec b a then ((b + 1) * g b + (G a - G b) + (1 - a) * g a) / 2 else ((a + 1) * g a + (G b - G a) + (1 - b) * g b) / 2). split.
    + intros b Hb. exists (fun c => g (median3 c b a)). split.
      * intros c _. reflexivity.
      * replace (1 - -1) with 2 by ring. destruct (Rle_dec b a).
        -- replace (2 * (((b + 1) * g b + (G a - G b) + (1 - a) * g a) / 2)) with ((b + 1) * g b + (G a - G b) + (1 - a) * g a) by field.
           apply inner_mean; (assumption || lra).
        -- replace (2 * (((a + 1) * g a + (G b - G a) + (1 - b) * g b) / 2)) with ((a + 1) * g a + (G b - G a) + (1 - b) * g b) by field.
           apply is_RInt_ext with (fun c => g (median3 c a b)); [intros c _; f_equal; apply median3_swap|]. apply inner_mean; (assumption || lra).
    + assert (E1 : is_RInt (fun b => ((b + 1) * g b + (G a - G b) + (1 - a) * g a) / 2) (-1) a (H a - H (-1) + (1 - a * a) * g a / 2)).
      { set (F := fun b => (2 * H b + (b + 1) * (G a - G b) + (1 - a) * g a * b) * / 2).
        replace (H a - H (-1) + (1 - a * a) * g a / 2) with (F a - F (-1)) by (unfold F; field).
        apply (ftc F); intros x.
        - eapply der_eq; [unfold F; der; [apply HH|apply HG]|]. cbv beta. field.
        - unfold Rdiv. cont; auto. }
      assert (E2 : is_RInt (fun b => ((a + 1) * g a + (G b - G a) + (1 - b) * g b) / 2) a 1 (K 1 - K a + (1 - a * a) * g a / 2)).
      { set (F := fun b => (2 * K b + (a + 1) * g a * b - (1 - b) * (G b - G a)) * / 2).
        replace (K 1 - K a + (1 - a * a) * g a / 2) with (F 1 - F a) by (unfold F; field).
        apply (ftc F); intros x.
        - eapply der_eq; [unfold F; der; [apply HK|apply HG]|]. cbv beta. field.
        - unfold Rdiv. cont; auto. }
      replace ((1 - -1) * ((2 * (1 - a * a) * g a + 2 * (H a - H (-1)) + 2 * (K 1 - K a)) / 4)) with (plus (H a - H (-1) + (1 - a * a) * g a / 2) (K 1 - K a + (1 - a * a) * g a / 2)) by (unfold plus; cbn; field).
      apply (is_RInt_Chasles (V := R_NormedModule)) with a.
      * apply is_RInt_ext with (2 := E1). intros x Hx. rewrite Rmin_left, Rmax_right in Hx by lra. destruct (Rle_dec x a); [reflexivity|lra].
      * apply is_RInt_ext with (2 := E2). intros x Hx. rewrite Rmin_left, Rmax_right in Hx by lra. destruct (Rle_dec x a); [lra|reflexivity].
  - set (F := fun a => (2 * P a + 2 * (P a - (1 - a) * (H a - H (-1))) + 2 * (P a + (1 + a) * (K 1 - K a))) * / 4).
    replace ((1 - -1) * (3 / 4 * (P 1 - P (-1)))) with (F 1 - F (-1)) by (unfold F; field).
    apply (ftc F); intros x.
    + eapply der_eq; [unfold F; der; [apply HP|apply HP|apply HH|apply HP|apply HK]|]. cbv beta. field.
    + unfold Rdiv. cont; auto.
Qed.

(** * One dimension *)
Lemma dist_norm_1 d : finite d = true -> dist_norm d 1 = betaq (dq d).
Proof. intros H. rewrite dist_norm_finite by (assumption || lia). cbn [rprod]. rewrite Nat.add_0_r. ring. Qed.
Lemma betaq_2 : betaq 2 = 4 / 3. Proof. rewrite betaq_SS, betaq_0. cbn [INR]. field. Qed.
Lemma betaq_6 : betaq 6 = 32 / 35. Proof. rewrite !betaq_SS, betaq_0. cbn [INR]. field. Qed.
Lemma line_kernel d t : finite d = true -> dist_evaluate d 1 (fun _ => t) = if andb (Rleb (-1) t) (Rleb t 1) then sqrt (1 - t * t) ^ dq d / betaq (dq d) else 0.
Proof.
  intros H. unfold dist_evaluate. rewrite dist_norm_1, prof_kq by exact H. unfold norm2. cbn [rsum]. rewrite Rplus_0_l. unfold kq.
  destruct (Rle_dec (t * t) 1) as [Ht|Ht].
  - destruct (Rleb_spec (-1) t); [|nra]. destruct (Rleb_spec t 1); [|nra]. reflexivity.
  - destruct (Rleb_spec (-1) t); [|unfold Rdiv; cbn [andb]; ring]. destruct (Rleb_spec t 1); [nra|unfold Rdiv; cbn [andb]; ring].
Qed.
Lemma line_integral d (g : R -> R) (l : R) : finite d = true -> is_RInt (fun t => g t * (sqrt (1 - t * t) ^ dq d / betaq (dq d))) (-1) 1 l ->
  is_tint (fun t => g t * dist_evaluate d 1 (fun _ => t)) l.
Proof.
  intros Hd H. apply tint_ext with (2 := window_tint (-1) 1 _ l ltac:(lra) H). intros t. rewrite line_kernel by exact Hd.
  destruct (andb _ _); ring.
Qed.
Lemma parabola_law n i r (g : R -> R) : (forall x, continuous g x) ->
  exists m, uniform_mean 3 (-1) 1 (fun u => g (dist_sample Parabola n (with_sym r i u) i)) m /\ is_tint (fun t => g t * dist_evaluate Parabola 1 (fun _ => t)) m.
Proof.
  intros Hg. destruct (antideriv_exists (fun x => (1 - x * x) * g x)) as [P HP]; [intros; cont; apply Hg|].
  exists (3 / 4 * (P 1 - P (-1))). split.
  - apply uniform_mean_ext with (2 := median_mean g P Hg HP). intros u _. cbn [dist_sample with_sym r_sym]. rewrite Nat.eqb_refl. reflexivity.
  - apply line_integral; [reflexivity|]. cbn [dq]. rewrite betaq_2.
    assert (H : is_RInt (fun x => (1 - x * x) * g x) (-1) 1 (P 1 - P (-1))) by (apply ftc; [exact HP|intros; cont; apply Hg]).
    pose proof (is_RInt_scal (V := R_NormedModule) _ _ _ (3 / 4) _ H) as HI.
    replace (3 / 4 * (P 1 - P (-1))) with (scal (3 / 4) (P 1 - P (-1)) : R) by reflexivity.
    apply is_RInt_ext with (2 := HI). intros x Hx. rewrite Rmin_left, Rmax_right in Hx by lra.
    change (3 / 4 * ((1 - x * x) * g x) = g x * (sqrt (1 - x * x) * (sqrt (1 - x * x) * 1) / (4 / 3))). rewrite Rmult_1_r, sqrt_sqrt by nra. field.
Qed.
Lemma box_law r (g : R -> R) : (forall x, continuous g x) ->
  exists m, uniform_mean 1 (-1) 1 (fun u => g (dist_sample Box 1 (with_sym r 0 u) 0%nat)) m /\ is_tint (fun t => g t * dist_evaluate Box 1 (fun _ => t)) m.
Proof.
  intros Hg. destruct (antideriv_exists g Hg) as [G HG]. exists ((G 1 - G (-1)) / 2). split.
  - apply uniform_mean_of; [lra|]. intros base. cbn [is_mean]. exists g. split; [intros t _; reflexivity|].
    replace ((1 - -1) * ((G 1 - G (-1)) / 2)) with (G 1 - G (-1)) by field. apply ftc; assumption.
  - apply line_integral; [reflexivity|]. cbn [dq]. rewrite betaq_0.
    pose proof (is_RInt_scal (V := R_NormedModule) _ _ _ (/ 2) _ (ftc G g (-1) 1 HG Hg)) as HI.
    replace ((G 1 - G (-1)) / 2) with (/ 2 * (G 1 - G (-1))) by field.
    apply is_RInt_ext with (2 := HI). intros x _. change (/ 2 * g x = g x * (1 / 2)). field.
Qed.

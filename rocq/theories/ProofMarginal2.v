(** Gaussian marginals over any set of coordinates, integrated in any order (C27). *)
From Coquelicot Require Import Coquelicot.
From Coq Require Import Permutation FunctionalExtensionality.
From Verif Require Import Base ModelLinAlg SpecLinAlg ProofLinAlg SpecIntegral ProofIntegral
  ModelKernels SpecKernels ProofKernels ModelKDE SpecKDE ProofDensity ProofReflect1 ProofMarginal.
Open Scope R_scope.

Lemma tintL_ext qs f g : (forall x, f x = g x) -> forall base l, is_tintL qs f base l -> is_tintL qs g base l.
Proof.
  intros H. induction qs as [|q qs IH]; cbn [is_tintL]; intros base l HI; [rewrite <- H; exact HI|].
  destruct HI as [h [H1 H2]]. exists h. split; [|exact H2]. intros t. apply IH, H1.
Qed.

Lemma white_dist2_ext n W x x' a a' : (forall i, (i < n)%nat -> x i = x' i) -> (forall i, (i < n)%nat -> a i = a' i) ->
  white_dist2 n W x a = white_dist2 n W x' a'.
Proof.
  intros Hx Ha. unfold white_dist2. apply rsum_ext. intros k _. cbv zeta.
  rewrite (rsum_ext n (fun l => W k l * x l) (fun l => W k l * x' l)) by (intros l Hl; rewrite Hx by exact Hl; reflexivity).
  rewrite (rsum_ext n (fun l => W k l * a l) (fun l => W k l * a' l)) by (intros l Hl; rewrite Ha by exact Hl; reflexivity).
  reflexivity.
Qed.

(** Only the first n rows and columns of the matrix, and the first n coordinates of the points, matter. *)
Lemma kernel_density_agree d n M M' (data data' : list pt) w f f' (x x' : pt) :
  agree n M M' -> length data = length data' ->
  (forall k i, (k < length data)%nat -> (i < n)%nat -> nth k data x i = nth k data' x' i) ->
  (forall i, (i < n)%nat -> x i = x' i) ->
  kernel_density (mkKernel d n M) n n data (Some w) None None = Ok f ->
  kernel_density (mkKernel d n M') n n data' (Some w) None None = Ok f' ->
  f x = f' x'.
Proof.
  intros HM Hl Hd Hx Hf Hf'. unfold kernel_density in Hf, Hf'. cbn [bind fst snd k_ndim k_matrix k_dist] in Hf, Hf'.
  rewrite Nat.eqb_refl in Hf, Hf'. cbn [negb] in Hf, Hf'.
  destruct (Nat.eqb_spec (length w) (length data)) as [Hw|]; [|discriminate Hf].
  rewrite <- Hl, Hw, Nat.eqb_refl in Hf'. cbn [bind] in Hf, Hf'.
  pose proof (minv_ext n M M' HM) as HI.
  destruct (minv n M) as [N|]; [|discriminate Hf]. destruct (minv n M') as [N'|]; [|discriminate Hf'].
  assert (EN : N = N') by (apply functional_extensionality; intros i; apply functional_extensionality; intros j; apply HI).
  subst N'. destruct (chol n N) as [W|]; [|discriminate Hf]. injection Hf as <-. injection Hf' as <-.
  rewrite (mdet_ext n M M' HM). f_equal.
  unfold eval_numba. clear - Hw Hl Hd Hx.
  assert (Hd' : forall k i, (k < length data)%nat -> (i < n)%nat -> nth k data (fun _ => 0) i = nth k data' (fun _ => 0) i).
  { intros k i Hk Hi. rewrite (nth_indep data _ x Hk), (nth_indep data' _ x') by (rewrite <- Hl; exact Hk). apply Hd; assumption. }
  clear Hd. revert w Hw data' Hl Hd'. induction data as [|a data IH]; intros [|v w] Hw [|a' data'] Hl Hd'; try discriminate; [reflexivity|].
  cbn [combine]. rewrite !sumf_cons. cbn [fst snd]. f_equal.
  - f_equal. f_equal. apply white_dist2_ext; [exact Hx|]. intros i Hi. apply (Hd' O i); [cbn; lia|exact Hi].
  - apply IH; [cbn in Hw; congruence|cbn in Hl; congruence|]. intros k i Hk Hi. apply (Hd' (S k) i); [cbn; lia|exact Hi].
Qed.

Section Marginal.
Variables (n : nat) (M : mat) (data : list pt) (w : list R).
Hypotheses (Hs : symmetric n M) (Hp : posdef n M) (Hw : length w = length data).

(** The density for the selected parameters, as a function of the full point. *)
Definition dpar (ps : list nat) (x : pt) : R :=
  match kernel_density (mkKernel Gaussian n M) (length ps) (length ps) (map (select ps) data) (Some w) None (Some ps) with
  | Ok g => g (select ps x)
  | Err _ => 0
  end.

Lemma kernel_density_submat d ps data' : (forall q, In q ps -> (q < n)%nat) ->
  kernel_density (mkKernel d n M) (length ps) (length ps) data' (Some w) None (Some ps)
  = kernel_density (mkKernel d (length ps) (submat ps M)) (length ps) (length ps) data' (Some w) None None.
Proof.
  intros Hq. unfold kernel_density. cbn [k_ndim k_matrix k_dist].
  assert (E : forallb (fun p => Nat.ltb p n) ps = true).
  { apply forallb_forall. intros q Hin. apply Nat.ltb_lt, Hq, Hin. }
  rewrite E, Nat.eqb_refl. reflexivity.
Qed.

Lemma marg_step q ps base : NoDup (q :: ps) -> (forall r, In r (q :: ps) -> (r < n)%nat) -> (1 <= length ps)%nat ->
  is_tint (fun t => dpar (q :: ps) (upd base q t)) (dpar ps base).
Proof.
  intros Hnd Hq Hm. set (m := length ps) in *. set (M1 := submat (q :: ps) M).
  assert (Hs1 : symmetric (1 + m) M1) by (apply (submat_sym n (q :: ps) M Hs Hq)).
  assert (Hp1 : posdef (1 + m) M1) by (apply (submat_posdef n (q :: ps) M Hp Hnd Hq)).
  set (data1 := map (select (q :: ps)) data).
  assert (Hw1 : length w = length data1) by (unfold data1; rewrite map_length; exact Hw).
  destruct (kernel_density_plain Gaussian (1 + m) M1 data1 (Some w) Hs1 Hp1) as [N [W [_ [_ [_ [_ [_ Hf]]]]]]].
  { intros w' E; injection E as <-; exact Hw1. }
  match type of Hf with _ = Ok ?F => set (f1 := F) in Hf end.
  destruct (kernel_density_params Gaussian (1 + m) M1 (seq 1 m) (map (select (seq 1 m)) data1) w Hs1 Hp1 (seq_NoDup _ _))
    as [N2 [W2 [_ [_ [_ [_ [_ Hg]]]]]]].
  { intros r Hr. apply in_seq in Hr. lia. }
  { rewrite map_length; exact Hw1. }
  rewrite seq_length in Hg. match type of Hg with _ = Ok ?F => set (g1 := F) in Hg end.
  pose proof (gauss_marginal 1 m M1 data1 w f1 g1 (select (q :: ps) base) Hm Hs1 Hp1 Hw1 Hf Hg) as HI.
  apply tintN_1 in HI.
  (* the two sides *)
  assert (E1 : forall t, dpar (q :: ps) (upd base q t) = f1 (upd (select (q :: ps) base) 0 t)).
  { intros t. unfold dpar. rewrite kernel_density_submat by exact Hq. fold data1 M1. change (length (q :: ps)) with (1 + m)%nat.
    rewrite Hf. apply (kernel_density_agree Gaussian (1 + m) M1 M1 data1 data1 w f1 f1); auto; try (intros i j _ _; reflexivity).
    - intros k i Hk Hi. rewrite (nth_indep data1 _ (upd (select (q :: ps) base) 0 t) Hk); reflexivity.
    - intros [|i] Hi; unfold select, upd; cbn [nth Nat.eqb]; [rewrite Nat.eqb_refl; reflexivity|].
      destruct (Nat.eqb_spec (nth i ps O) q) as [E|]; [|reflexivity]. exfalso. inversion Hnd as [|? ? Hnin _].
      apply Hnin. rewrite <- E. apply nth_In. unfold m in Hi. lia. }
  assert (E2 : dpar ps base = g1 (select (seq 1 m) (select (q :: ps) base))).
  { assert (Hq' : forall r, In r ps -> (r < n)%nat) by (intros; apply Hq; right; assumption).
    assert (Hnd' : NoDup ps) by (inversion Hnd; assumption).
    unfold dpar. rewrite kernel_density_submat by exact Hq'. fold m.
    destruct (kernel_density_plain Gaussian m (submat ps M) (map (select ps) data) (Some w) (submat_sym n ps M Hs Hq') (submat_posdef n ps M Hp Hnd' Hq'))
      as [N3 [W3 [_ [_ [_ [_ [_ H3]]]]]]].
    { intros w' E; injection E as <-; rewrite map_length; exact Hw. }
    rewrite H3. match type of H3 with _ = Ok ?F => set (f3 := F) in * end.
    assert (Hg' : kernel_density (mkKernel Gaussian m (submat (seq 1 m) M1)) m m (map (select (seq 1 m)) data1) (Some w) None None = Ok g1).
    { rewrite <- Hg. unfold kernel_density. cbn [k_ndim k_matrix k_dist].
      assert (E : forallb (fun p => Nat.ltb p (1 + m)) (seq 1 m) = true).
      { apply forallb_forall. intros r Hin. apply in_seq in Hin. apply Nat.ltb_lt. lia. }
      rewrite E, seq_length, Nat.eqb_refl. reflexivity. }
    assert (Hsel : forall y i, (i < m)%nat -> select ps y i = select (seq 1 m) (select (q :: ps) y) i).
    { intros y i Hi. unfold select. rewrite seq_nth by exact Hi. reflexivity. }
    refine (kernel_density_agree Gaussian m _ _ _ _ w f3 g1 _ _ _ _ _ _ H3 Hg').
    - intros i j Hi Hj. unfold submat, M1, submat. rewrite !seq_nth by assumption. reflexivity.
    - unfold data1. rewrite !map_length. reflexivity.
    - intros k i Hk Hi. rewrite map_length in Hk. unfold data1. rewrite map_map.
      rewrite (nth_indep (map (select ps) data) _ (select ps (fun _ => 0))) by (rewrite map_length; exact Hk).
      rewrite (nth_indep (map (fun x => select (seq 1 m) (select (q :: ps) x)) data) _ (select (seq 1 m) (select (q :: ps) (fun _ => 0)))) by (rewrite map_length; exact Hk).
      rewrite (map_nth (select ps)), (map_nth (fun x => select (seq 1 m) (select (q :: ps) x))). apply Hsel, Hi.
    - intros i Hi. apply Hsel, Hi. }
  rewrite E2. apply tint_ext with (2 := HI). intros t. rewrite E1. reflexivity.
Qed.

Lemma marg_all rest : forall ps base, NoDup (rev rest ++ ps) -> (forall r, In r (rev rest ++ ps) -> (r < n)%nat) ->
  (1 <= length ps)%nat -> is_tintL rest (dpar (rev rest ++ ps)) base (dpar ps base).
Proof.
  induction rest as [|q rest IH]; intros ps base Hnd Hq Hm; cbn [is_tintL rev app]; [reflexivity|].
  cbn [rev] in Hnd, Hq. rewrite <- app_assoc in Hnd, Hq. cbn [app] in Hnd, Hq.
  exists (fun t => dpar (q :: ps) (upd base q t)). split.
  - intros t. rewrite <- app_assoc. cbn [app]. apply IH; [exact Hnd|exact Hq|cbn; lia].
  - apply marg_step; [|intros r Hr; apply Hq, in_or_app; right; exact Hr|exact Hm].
    clear - Hnd. induction (rev rest) as [|a l IHl]; [exact Hnd|]. apply IHl. cbn [app] in Hnd. inversion Hnd; assumption.
Qed.
End Marginal.

Lemma gauss_marginal_any n M data w f g rest ps base :
  symmetric n M -> posdef n M -> length w = length data ->
  Permutation (rest ++ ps) (seq 0 n) -> ps <> [] ->
  kernel_density (mkKernel Gaussian n M) n n data (Some w) None None = Ok f ->
  kernel_density (mkKernel Gaussian n M) (length ps) (length ps) (map (select ps) data) (Some w) None (Some ps) = Ok g ->
  is_tintL rest f base (g (select ps base)).
Proof.
  intros Hs Hp Hw HP Hne Hf Hg.
  assert (HP' : Permutation (rev rest ++ ps) (seq 0 n)).
  { rewrite <- HP. apply Permutation_app_tail. symmetry. apply Permutation_rev. }
  pose proof (Permutation_length HP') as Hl. rewrite seq_length in Hl.
  assert (Hm : (1 <= length ps)%nat) by (destruct ps; [contradiction Hne; reflexivity|cbn; lia]).
  assert (Hn : (1 <= n)%nat) by (rewrite app_length in Hl; lia).
  assert (Hnd : NoDup (rev rest ++ ps)) by (apply Permutation_NoDup with (seq 0 n); [symmetry; exact HP'|apply seq_NoDup]).
  pose proof (marg_all n M data w Hs Hp Hw rest ps base Hnd (perm_bound n _ HP') Hm) as H.
  unfold dpar at 2 in H. rewrite Hg in H.
  apply tintL_ext with (2 := H). intros x. unfold dpar.
  destruct (kernel_density_params Gaussian n M (rev rest ++ ps) (map (select (rev rest ++ ps)) data) w Hs Hp Hnd (perm_bound n _ HP'))
    as [N2 [W2 [_ [_ [_ [_ [_ H2]]]]]]].
  { rewrite map_length; exact Hw. }
  rewrite H2. match type of H2 with _ = Ok ?F => set (h := F) in * end. rewrite Hl in H2.
  exact (density_params_perm Gaussian n M (rev rest ++ ps) data w f h x Hn Hs Hp HP' Hw Hf H2).
Qed.

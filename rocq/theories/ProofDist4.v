(** The edges of histograms with a number of bins. *)
From Verif Require Import Base ModelLinAlg ModelKernels ModelKDE ModelExtrema ModelUtils ModelNd ModelGrid ModelPlot ModelDist SpecUtils SpecPlot SpecDist
  ProofExtrema ProofUtils ProofUtils2 ProofUtils3 ProofUtils4 ProofDist ProofDist2.
Open Scope R_scope.
Notation length := List.length.
Lemma hist1d_uses auto data isarr n wo (dens prob : bool) h es : hist1d auto data isarr (EdNum n) wo dens prob = Ok (h, es) -> (1 <= n)%nat /\ es = equal_edges data n.
Proof.
  unfold hist1d, histogram_of. destruct n as [|n]; [discriminate|]. cbn [Nat.eqb bind]. unfold histogram.
  destruct (negb _); [discriminate|]. destruct (negb _); [discriminate|]. cbn [bind]. intros H. split; [lia|]. destruct wo; [|destruct (andb _ _); [discriminate|]]; inversion H; reflexivity.
Qed.
Lemma bins_spread auto data isarr n wo (dens prob : bool) h es : hist1d auto data isarr (EdNum n) wo dens prob = Ok (h, es) ->
  length es = S n /\ exists a b, (forall i, (i <= n)%nat -> nth i es 0 = a + INR i * (b - a) / INR n)
  /\ (data = [] -> a = 0 /\ b = 1)
  /\ (forall lo hi, In lo data -> In hi data -> (forall x, In x data -> lo <= x <= hi) -> (lo < hi -> a = lo /\ b = hi) /\ (lo = hi -> a = lo - 1 / 2 /\ b = lo + 1 / 2)).
Proof.
  intros H. destruct (hist1d_uses _ _ _ _ _ _ _ _ _ H) as [Hn ->]. clear H. unfold equal_edges.
  assert (N : forall a b i, (i <= n)%nat -> nth i (linspace a b (n + 1)) 0 = a + INR i * (b - a) / INR n) by (intros a b i Hi; rewrite linspace_nth by lia; replace (n + 1 - 1)%nat with n by lia; reflexivity).
  destruct data as [|x0 l] eqn:E.
  - split; [rewrite linspace_length; lia|]. exists 0, 1. split; [apply N|]. split; [intros _; split; reflexivity|]. intros lo hi [].
  - rewrite <- E. assert (Hne : data <> []) by (rewrite E; discriminate). clear E x0 l.
    assert (X : forall lo hi, In lo data -> In hi data -> (forall x, In x data -> lo <= x <= hi) -> lo = lmin data /\ hi = lmax data).
    { intros lo hi H1 H2 H3. pose proof (lmin_le data lo H1). pose proof (lmax_ge data hi H2). pose proof (H3 _ (lmin_in data Hne)). pose proof (H3 _ (lmax_in data Hne)). lra. }
    destruct (Reqb_spec (lmin data) (lmax data)) as [E|E]; (split; [rewrite linspace_length; lia|]).
    + exists (lmin data - 1 / 2), (lmax data + 1 / 2). split; [apply N|]. split; [intros C; contradiction|]. intros lo hi H1 H2 H3. destruct (X lo hi H1 H2 H3) as [-> ->]. split; intros; lra.
    + exists (lmin data), (lmax data). split; [apply N|]. split; [intros C; contradiction|]. intros lo hi H1 H2 H3. destruct (X lo hi H1 H2 H3) as [-> ->]. split; intros; lra.
Qed.
Lemma bins_empty auto isarr n (dens : bool) : (1 <= n)%nat -> exists es, hist1d auto [] isarr (EdNum n) None dens false = Ok (repeat 0 n, es).
Proof.
  intros Hn. exists (equal_edges [] n). unfold hist1d, histogram_of. destruct n as [|n]; [lia|]. cbn [Nat.eqb bind]. set (es := equal_edges [] (S n)). unfold histogram. cbn [length map Nat.eqb negb].
  assert (L : length es = S (S n)) by (unfold es, equal_edges; rewrite linspace_length; lia).
  assert (ND : nondecr es = true).
  { apply nondecr_spec. intros i Hi. left. unfold es, equal_edges. apply linspace_incr; [lra|lia|lia|]. rewrite linspace_length. rewrite L in Hi. lia. }
  rewrite ND. cbn [negb bind andb]. f_equal. f_equal. unfold np_histogram. rewrite L. cbn [combine]. replace (S (S n) - 1)%nat with (S n) by lia.
  assert (Z : map (fun i : nat => sumf (fun xw : R * R => if in_bin es i (fst xw) then snd xw else 0) []) (seq 0 (S n)) = repeat 0 (S n)).
  { clear. generalize 0%nat as s. generalize (S n) as k. induction k as [|k IH]; intros s; [reflexivity|]. cbn [seq map repeat]. rewrite IH. reflexivity. }
  rewrite Z. destruct dens; [|reflexivity]. assert (LD : length (diff es) = S n) by (rewrite diff_length, L; lia). revert LD. generalize (diff es) as ds. generalize (S n) as k. clear.
  induction k as [|k IH]; intros [|x ds] H; try discriminate; [reflexivity|]. cbn [repeat combine map fst snd]. rewrite IH by (cbn in H; lia). f_equal. unfold Rdiv. ring.
Qed.

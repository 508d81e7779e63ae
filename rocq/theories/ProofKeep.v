From Coq Require Import ZArith FunctionalExtensionality.
From Verif Require Import Base ModelLinAlg ModelKernels ModelKDE ModelReflect ModelResample ModelUtils ModelNd ModelKeep SpecKeep SpecLinAlg ProofLinAlg ProofKDE ProofResample.
Open Scope R_scope.
Notation length := List.length.

Lemma counts_iff n z k : counts n z k <-> norm_axis n z = Some k.
Proof.
  unfold counts, norm_axis. split.
  - intros [Hk [-> | ->]].
    + destruct (Z.leb_spec 0 (Z.of_nat k)); [|lia]. destruct (Z.ltb_spec (Z.of_nat k) (Z.of_nat n)); [|lia]. cbn [andb]. f_equal. lia.
    + destruct (Z.leb_spec 0 (Z.of_nat k - Z.of_nat n)); [lia|]. cbn [andb]. destruct (Z.leb_spec (- Z.of_nat n) (Z.of_nat k - Z.of_nat n)); [|lia].
      destruct (Z.ltb_spec (Z.of_nat k - Z.of_nat n) 0); [|lia]. cbn [andb]. f_equal. lia.
  - destruct (Z.leb_spec 0 z), (Z.ltb_spec z (Z.of_nat n)); cbn [andb]; try (intros E; injection E as <-; lia);
    destruct (Z.leb_spec (- Z.of_nat n) z), (Z.ltb_spec z 0); cbn [andb]; try discriminate; intros E; injection E as <-; lia.
Qed.
Lemma counts_none n z : norm_axis n z = None <-> ~ exists k, counts n z k.
Proof.
  split.
  - intros E [k H]. apply counts_iff in H. congruence.
  - intros H. destruct (norm_axis n z) as [k|] eqn:E; [|reflexivity]. exfalso. apply H. exists k. apply counts_iff, E.
Qed.

Lemma zero_dims_nil z : zero_dims [] z = z. Proof. reflexivity. Qed.
Lemma zero_entries_nums n zs ks : Forall2 (counts n) zs ks -> forall z, zero_entries n (map KeNum zs) z = Ok (zero_dims ks z).
Proof.
  induction 1 as [|a k zs ks H HF IH]; intros z; [reflexivity|]. cbn [map zero_entries]. apply counts_iff in H. rewrite H, IH. f_equal.
  extensionality i. unfold zero_dims. cbn [existsb]. destruct (Nat.eqb i k); [destruct (existsb _ ks)|]; reflexivity.
Qed.
Lemma zero_entries_bad n zs : (exists z, In z zs /\ ~ exists k, counts n z k) -> forall x, zero_entries n (map KeNum zs) x = Err IndexError.
Proof.
  intros [z [Hz Hn]]. induction zs as [|a zs IH]; [destruct Hz|]. intros x. cbn [map zero_entries]. destruct Hz as [-> |Hz].
  - apply counts_none in Hn. rewrite Hn. reflexivity.
  - destruct (norm_axis n a); [apply IH, Hz|reflexivity].
Qed.
Lemma zero_entries_mask n l : forall x, zero_entries n (map KeBit l) x = Ok (if existsb (fun b => b) l then fun _ => 0 else x).
Proof.
  induction l as [|[] l IH]; intros x; cbn [map zero_entries existsb orb]; [reflexivity| |apply IH]. rewrite IH. destruct (existsb _ l); reflexivity.
Qed.
Lemma mapM_map (A B : Type) (f : A -> res B) (g : A -> B) l : (forall x, f x = Ok (g x)) -> mapM f l = Ok (map g l).
Proof. intros H. induction l as [|x l IH]; [reflexivity|]. cbn [mapM map]. rewrite H. cbn [bind]. rewrite IH. reflexivity. Qed.
Lemma zero_rows_nums n refl zs ks : length refl = n -> Forall2 (counts n) zs ks -> forall M, zero_rows_kf (map KeNum zs) n refl M = zero_rows ks n refl M.
Proof.
  intros Hl. induction 1 as [|a k zs ks H HF IH]; intros M; [reflexivity|]. cbn [map zero_rows_kf zero_rows]. pose proof (proj1 H) as Hk. apply counts_iff in H. rewrite Hl, H.
  apply Nat.ltb_lt in Hk. rewrite Hk. cbn [negb]. destruct (nth k refl None); [reflexivity|]. apply IH.
Qed.
Lemma resample_reflect_keep d n M M1 data w refl keep chunk size rn ix : cov_keep_vars n M keep refl = Ok M1 ->
  resample_reflect d n M data w refl keep chunk size rn ix = resample_reflect d n M1 data w refl KeepNone chunk size rn ix.
Proof. intros E. unfold resample_reflect at 1. rewrite E. reflexivity. Qed.
Lemma check_loop_length ko data l : forall ii, length (fst (check_loop ko data ii l)) = length l.
Proof.
  induction l as [|e l IH]; intros ii; [reflexivity|]. cbn [check_loop]. destruct (check_entry ko data ii e) as [e' [u|x]]; cbn [fst List.length]; [rewrite IH|]; reflexivity.
Qed.
Lemma checked_length n data arg refl : snd (check_reflect n data arg) = Ok (Some refl) -> length refl = n.
Proof.
  destruct arg as [| | |r|k l]; cbn [check_reflect snd]; try discriminate; cbv zeta.
  - cbn [snd]. destruct (snd (check_loop _ _ _ _)); [|discriminate]. cbn [bind]. intros E. injection E as <-. rewrite map_length. etransitivity; [apply check_loop_length|apply repeat_length].
  - destruct (andb (Nat.eqb (length l) 2) (Nat.eqb n 1)) eqn:Ea.
    + apply andb_prop in Ea. destruct Ea as [_ En]. apply Nat.eqb_eq in En. destruct l as [|[a|] [|[b|] [|]]]; try discriminate. cbn [snd].
      destruct (snd (check_loop _ _ _ _)); [|discriminate]. cbn [bind]. intros E. injection E as <-. rewrite map_length. etransitivity; [apply (check_loop_length KList data [ESeq KList [fst (coerce_pair a b); snd (coerce_pair a b)]] 0)|symmetry; exact En].
    + destruct (Nat.eqb_spec (length l) n) as [En|]; [|discriminate]. cbn [negb]. destruct (negb (goods l)); [discriminate|]. cbn [snd].
      destruct (snd (check_loop _ _ _ _)); [|discriminate]. cbn [bind]. intros E. injection E as <-. rewrite map_length. etransitivity; [apply check_loop_length|exact En].
Qed.

(** Numbers counted from the end mean the same parameters. *)
Lemma clear_numbers d n M data w kf keep size rn ix zs ks : kf_entries n kf = map KeNum zs -> keep_dims n keep = ks -> Forall2 (counts n) zs ks ->
  resample_clear_kf d n M data w kf size rn ix = resample_clear d n M data w keep size rn ix.
Proof.
  intros E1 E2 HF. unfold resample_clear_kf, resample_clear. rewrite E1, E2.
  destruct (add_cov n M _) as [noise|e]; [|reflexivity]. cbn [bind].
  rewrite (zero_entries_nums n zs ks HF). cbn [bind]. rewrite (mapM_map _ _ _ (zero_dims ks)) by (apply zero_entries_nums; exact HF). cbn [bind].
  assert (Hk : forallb (fun p => Nat.ltb p n) ks = true).
  { apply forallb_forall. intros k Hk. apply Nat.ltb_lt. clear -HF Hk. induction HF as [|z k' zs ks Hc HF IH]; [destruct Hk|]. destruct Hk as [-> |Hk]; [exact (proj1 Hc)|apply IH, Hk]. }
  rewrite Hk. reflexivity.
Qed.
Lemma keep_numbers_gen ok n data w size kf keep chunk arg rn ix zs ks : kf_entries n kf = map KeNum zs -> keep_dims n keep = ks -> Forall2 (counts n) zs ks ->
  kernel_resample_kf ok n data w size kf chunk arg rn ix = kernel_resample ok n data w size keep chunk arg rn ix.
Proof.
  intros E1 E2 HF. unfold kernel_resample_kf, kernel_resample. cbv zeta. f_equal.
  destruct (snd (check_reflect n data arg)) as [[refl|]|e] eqn:Ec; cbn [bind]; destruct ok as [k|]; try reflexivity.
  - pose proof (checked_length _ _ _ _ Ec) as Hl. rewrite E1, (zero_rows_nums n refl zs ks Hl HF).
    destruct (zero_rows ks n refl (k_matrix k)) as [M1|e] eqn:Ez.
    + cbn [bind]. rewrite (resample_reflect_keep (k_dist k) n (k_matrix k) M1 data w refl keep); [reflexivity|]. unfold cov_keep_vars. rewrite E2. exact Ez.
    + cbn [bind]. unfold resample_reflect, cov_keep_vars. rewrite E2, Ez. reflexivity.
  - apply clear_numbers with (zs := zs) (ks := ks); assumption.
Qed.
Lemma keep_numbers : forall ok n data w size chunk arg rn ix zs ks, Forall2 (counts n) zs ks ->
  kernel_resample_kf ok n data w size (KfNums zs) chunk arg rn ix = kernel_resample ok n data w size (KeepList ks) chunk arg rn ix.
Proof. intros. apply keep_numbers_gen with (zs := zs) (ks := ks); auto. Qed.
Lemma keep_number : forall ok n data w size chunk arg rn ix z k, counts n z k ->
  kernel_resample_kf ok n data w size (KfOne z) chunk arg rn ix = kernel_resample ok n data w size (KeepInt k) chunk arg rn ix.
Proof. intros. apply keep_numbers_gen with (zs := [z]) (ks := [k]); auto. Qed.
Lemma keep_plain : forall ok n data w size chunk arg rn ix,
  kernel_resample_kf ok n data w size KfNone chunk arg rn ix = kernel_resample ok n data w size KeepNone chunk arg rn ix
  /\ (forall b, kernel_resample_kf ok n data w size (KfBool b) chunk arg rn ix = kernel_resample ok n data w size (KeepBool b) chunk arg rn ix).
Proof.
  intros. split; [apply keep_numbers_gen with (zs := []) (ks := []); auto|]. intros [|].
  - apply keep_numbers_gen with (zs := map Z.of_nat (seq 0 n)) (ks := seq 0 n); [cbn; rewrite map_map; reflexivity|reflexivity|].
    assert (H : forall m s, (s + m <= n)%nat -> Forall2 (counts n) (map Z.of_nat (seq s m)) (seq s m)).
    { induction m as [|m IH]; intros s Hs; cbn; constructor; [split; [lia|left; reflexivity]|apply IH; lia]. }
    apply H. lia.
  - apply keep_numbers_gen with (zs := []) (ks := []); auto.
Qed.
(** Out of range. *)
Lemma keep_bad : forall k n data w size chunk arg rn ix zs s, snd (check_reflect n data arg) = Ok None ->
  snd (kernel_resample (Some k) n data w size KeepNone chunk arg rn ix) = Ok s -> (exists z, In z zs /\ ~ exists j, counts n z j) ->
  snd (kernel_resample_kf (Some k) n data w size (KfNums zs) chunk arg rn ix) = Err IndexError.
Proof.
  intros k n data w size chunk arg rn ix zs s Hc Hs Hz. unfold kernel_resample_kf, kernel_resample in *. cbv zeta in *. cbn [snd] in *. rewrite Hc in *. cbn [bind] in *.
  unfold resample_clear_kf, resample_clear in *. destruct (add_cov n _ _) as [noise|e]; [|discriminate Hs]. cbn [bind kf_entries].
  rewrite zero_entries_bad by exact Hz. reflexivity.
Qed.
Lemma zeros_nth (l : list pt) : forall j i, nth j (map (fun _ : pt => (fun _ => 0) : pt) l) pt0 i = 0.
Proof. induction l as [|x l IH]; intros [|j] i; try reflexivity. apply IH. Qed.
(** A list of booleans: any True keeps all parameters. *)
Lemma keep_mask : forall k n data w size chunk arg rn ix l s, snd (check_reflect n data arg) = Ok None ->
  snd (kernel_resample (Some k) n data w size KeepNone chunk arg rn ix) = Ok s ->
  (In true l -> exists s', snd (kernel_resample_kf (Some k) n data w size (KfMask l) chunk arg rn ix) = Ok s'
    /\ length s' = length s /\ forall j i, (j < length s')%nat -> nth j s' pt0 i = nth (ix O j) data pt0 i)
  /\ (~ In true l -> snd (kernel_resample_kf (Some k) n data w size (KfMask l) chunk arg rn ix) = Ok s).
Proof.
  intros k n data w size chunk arg rn ix l s Hc Hs. unfold kernel_resample_kf, kernel_resample in *. cbv zeta in *. cbn [snd] in *. rewrite Hc in *. cbn [bind] in *.
  set (sz := match size with None => length data | Some s => s end) in *.
  unfold resample_clear_kf, resample_clear in *. destruct (add_cov n _ _) as [noise|e] eqn:En; [|discriminate Hs]. cbn [bind kf_entries keep_dims forallb negb] in *.
  rewrite zero_entries_mask. cbn [bind]. rewrite (mapM_map pt pt (zero_entries n (map KeBit l)) (fun x : pt => (if existsb (fun b => b) l then fun _ => 0 else x) : pt)) by (intros; apply zero_entries_mask). cbn [bind].
  destruct (negb (choice_ok (length data) sz w)); [discriminate Hs|]. injection Hs as <-.
  assert (Ll : length noise = sz).
  { unfold add_cov in En. destruct (chol n (k_matrix k)); [|discriminate En]. injection En as <-. rewrite !map_length, seq_length. reflexivity. }
  assert (Ht : existsb (fun b => b) l = true <-> In true l).
  { rewrite existsb_exists. split; [intros [b [Hb ->]]; exact Hb|intros H; exists true; auto]. }
  split; intros H.
  - apply Ht in H. rewrite H. eexists. split; [reflexivity|]. split.
    + rewrite !map_length, !combine_length, !map_length, seq_length. reflexivity.
    + intros j i Hj. rewrite map_length, combine_length, !map_length, seq_length, Ll, Nat.min_id in Hj.
      set (g := fun mz : pt * pt => padd (fst mz) (snd mz)). rewrite (nth_indep _ pt0 (g (pt0, pt0))) by (rewrite map_length, combine_length, !map_length, seq_length, Ll; lia).
      rewrite map_nth. rewrite combine_nth by (rewrite !map_length, seq_length; auto). unfold g, padd. cbn [fst snd].
      set (f := fun j => nth (ix O j) data pt0). rewrite (nth_indep _ pt0 (f O)) by (rewrite map_length, seq_length; exact Hj). rewrite map_nth, seq_nth by exact Hj.
      rewrite (zeros_nth noise j i). unfold f. cbn [Nat.add]. ring.
  - assert (Hf : existsb (fun b => b) l = false) by (apply Bool.not_true_iff_false; rewrite Ht; exact H). rewrite Hf. reflexivity.
Qed.

(** [True, False] is not the first parameter. *)
Lemma keep_mask_refuted : exists (k : kernel) n data ix rn s s', snd (kernel_resample_kf (Some k) n data None (Some 1%nat) (KfMask [true; false]) 1 RNone rn ix) = Ok s
  /\ snd (kernel_resample_kf (Some k) n data None (Some 1%nat) (KfOne 0) 1 RNone rn ix) = Ok s' /\ n = 2%nat /\ nth 0 s pt0 1%nat <> nth 0 s' pt0 1%nat.
Proof.
  set (k := mkKernel Gaussian 2 ident). set (rn := fun _ _ : nat => mkRnd (fun i => INR i) (fun _ => 0) (fun _ _ => 0)).
  destruct (chol_posdef 2 ident (ident_sym 2) (ident_posdef 2)) as [U [HU _]]. destruct (chol_sound 2 ident U HU) as [_ Hp _].
  exists k, 2%nat, [pt0], (fun _ _ => 0%nat), rn. eexists _, _. split; [|split; [|split; [reflexivity|]]].
  - unfold kernel_resample_kf, resample_clear_kf, add_cov. cbn [check_reflect snd bind k k_matrix k_dist]. rewrite HU. cbn [bind kf_entries map zero_entries seq mapM].
    cbn [choice_ok List.length Nat.eqb andb negb combine fst snd]. reflexivity.
  - unfold kernel_resample_kf, resample_clear_kf, add_cov. cbn [check_reflect snd bind k k_matrix k_dist]. rewrite HU. cbn [bind kf_entries map zero_entries seq mapM].
    replace (norm_axis 2 0) with (Some 0%nat) by reflexivity. cbn [bind choice_ok List.length Nat.eqb andb negb combine fst snd]. reflexivity.
  - cbn [nth]. unfold padd, color, pt0. cbn. specialize (Hp 1%nat ltac:(lia)). lra.
Qed.

(** Numbers of parameters counted from the end. *)
Lemma pick_counts n zs ks : Forall2 (counts n) zs ks -> pick n zs = Ok ks.
Proof. unfold pick. induction 1 as [|z k zs ks H HF IH]; [reflexivity|]. cbn [mapM]. apply counts_iff in H. rewrite H. cbn [bind]. rewrite IH. reflexivity. Qed.
Lemma forallb_counts n zs ks : Forall2 (counts n) zs ks -> forallb (fun q => Nat.ltb q n) ks = true.
Proof. induction 1 as [|z k zs ks H HF IH]; [reflexivity|]. cbn [forallb]. rewrite IH. apply proj1, Nat.ltb_lt in H. rewrite H. reflexivity. Qed.
Lemma params_numbers : forall K kern (prob : bool) pdim refl zs ks, (2 <= kd_ndim K)%nat -> kd_kernel K = Some kern -> k_ndim kern = kd_ndim K ->
  (forall r, kd_reflect K = Some r -> length r = kd_ndim K) -> Forall2 (counts (kd_ndim K)) zs ks ->
  kde_density_pf K prob pdim refl (PfNums zs) = kde_density K prob pdim refl (PList ks).
Proof.
  intros K kern prob pdim refl zs ks Hn Hk Hkn Hr HF. unfold kde_density_pf, kde_density. destruct (Nat.eqb_spec (kd_ndim K) 1) as [E1|_]; [lia|]. cbv zeta.
  unfold resolve_params. destruct (Nat.eqb_spec (kd_ndim K) 1) as [E1|_]; [lia|]. rewrite (forallb_counts _ _ _ HF). cbn [bind]. rewrite Hk, Hkn, (pick_counts _ _ _ HF).
  destruct refl as [r|]; cbn [bind]; [destruct (negb _); reflexivity|].
  destruct (kd_reflect K) as [r|]; cbn [bind]; [|reflexivity]. rewrite (Hr r eq_refl), (pick_counts _ _ _ HF). cbn [bind]. reflexivity.
Qed.
Lemma params_number : forall K kern (prob : bool) pdim refl z k, (2 <= kd_ndim K)%nat -> kd_kernel K = Some kern -> k_ndim kern = kd_ndim K ->
  (forall r, kd_reflect K = Some r -> length r = kd_ndim K) -> counts (kd_ndim K) z k ->
  kde_density_pf K prob pdim refl (PfOne z) = kde_density K prob pdim refl (PInt k).
Proof.
  intros K kern prob pdim refl z k Hn Hk Hkn Hr HC. transitivity (kde_density K prob pdim refl (PList [k])).
  - rewrite <- (params_numbers K kern prob pdim refl [z] [k] Hn Hk Hkn Hr) by (constructor; [exact HC|constructor]). unfold kde_density_pf. destruct (Nat.eqb_spec (kd_ndim K) 1); [lia|reflexivity].
  - unfold kde_density, resolve_params. destruct (Nat.eqb_spec (kd_ndim K) 1); [lia|]. cbn [forallb]. destruct (Nat.ltb k (kd_ndim K)); reflexivity.
Qed.
(** One-dimensional data: not even -1. *)
Lemma params_single : forall K (prob : bool) pdim refl z, kd_ndim K = 1%nat ->
  kde_density_pf K prob pdim refl (PfOne z) = if Z.eqb z 0 then kde_density K prob pdim refl PNone else Err ValueError.
Proof. intros K prob pdim refl z H. unfold kde_density_pf. rewrite H. reflexivity. Qed.

(** A number out of range among the parameters of the density. *)
Lemma pick_bad n zs : (exists z, In z zs /\ ~ exists j, counts n z j) -> pick n zs = Err IndexError.
Proof.
  intros [z [Hz Hn]]. unfold pick. induction zs as [|a zs IH]; [destruct Hz|]. cbn [mapM]. destruct Hz as [-> |Hz].
  - apply counts_none in Hn. rewrite Hn. reflexivity.
  - destruct (norm_axis n a); [|reflexivity]. cbn [bind]. rewrite IH by exact Hz. reflexivity.
Qed.
Lemma params_bad : forall K (prob : bool) pdim refl zs, (2 <= kd_ndim K)%nat ->
  (forall r, kd_reflect K = Some r -> length r = kd_ndim K) -> (exists z, In z zs /\ ~ exists j, counts (kd_ndim K) z j) ->
  kde_density_pf K prob pdim refl (PfNums zs) = Err IndexError
  /\ (forall z, ~ (exists j, counts (kd_ndim K) z j) -> kde_density_pf K prob pdim refl (PfOne z) = Err IndexError).
Proof.
  intros K prob pdim refl zs Hn Hr Hz.
  assert (A : forall ys, (exists z, In z ys /\ ~ exists j, counts (kd_ndim K) z j) -> kde_density_pf K prob pdim refl (PfNums ys) = Err IndexError).
  { intros ys Hy. unfold kde_density_pf. cbv zeta. destruct (Nat.eqb_spec (kd_ndim K) 1); [lia|].
    destruct refl as [r|].
    - cbn [bind]. rewrite pick_bad by exact Hy. reflexivity.
    - destruct (kd_reflect K) as [r|] eqn:Er; cbn [bind].
      + rewrite (Hr r eq_refl), pick_bad by exact Hy. reflexivity.
      + rewrite pick_bad by exact Hy. reflexivity. }
  split; [apply A, Hz|]. intros z Hb. specialize (A [z]). unfold kde_density_pf in *. cbv zeta in *. destruct (Nat.eqb_spec (kd_ndim K) 1); [lia|].
  apply A. exists z. split; [left; reflexivity|exact Hb].
Qed.
(** With boundaries. *)
Lemma keep_bad_reflect : forall k n data w size chunk arg rn ix refl zs ks z rest, snd (check_reflect n data arg) = Ok (Some refl) ->
  Forall2 (counts n) zs ks -> (forall q, In q ks -> nth q refl None = None) -> (~ exists j, counts n z j) ->
  snd (kernel_resample_kf (Some k) n data w size (KfNums (zs ++ z :: rest)) chunk arg rn ix) = Err IndexError.
Proof.
  intros k n data w size chunk arg rn ix refl zs ks z rest Hc HF Hq Hz. unfold kernel_resample_kf. cbv zeta. cbn [snd]. rewrite Hc. cbn [bind kf_entries]. pose proof (checked_length _ _ _ _ Hc) as Hl.
  assert (E : forall M, zero_rows_kf (map KeNum (zs ++ z :: rest)) n refl M = Err IndexError); [|rewrite E; reflexivity].
  induction HF as [|a q zs ks H HF IH]; intros M; cbn [app map zero_rows_kf]; [apply counts_none in Hz; rewrite Hz; reflexivity|].
  apply counts_iff in H. rewrite Hl, H, (Hq q (or_introl eq_refl)). apply IH. intros p Hp. apply Hq. right. exact Hp.
Qed.
Lemma keep_mask_reflect : forall k n data w size chunk arg rn ix refl b l, snd (check_reflect n data arg) = Ok (Some refl) ->
  snd (kernel_resample_kf (Some k) n data w size (KfMask (b :: l)) chunk arg rn ix) = Err TypeError.
Proof. intros k n data w size chunk arg rn ix refl b l Hc. unfold kernel_resample_kf. cbv zeta. cbn [snd]. rewrite Hc. reflexivity. Qed.

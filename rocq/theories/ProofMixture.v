(** C132: merged data sets. *)
From Verif Require Import Base ModelLinAlg SpecLinAlg ProofLinAlg ModelKernels SpecKernels ProofKernels ModelKDE SpecKDE SpecMixture ProofDensity ProofKDE ProofTop ProofTop2.
Open Scope R_scope.
Notation length := List.length.

Lemma mx_sumf_app {A} (f : A -> R) l m : sumf f (l ++ m) = sumf f l + sumf f m.
Proof. induction l as [|a l IH]; cbn [app]; [unfold sumf at 2; cbn; ring|]. rewrite !sumf_cons, IH. ring. Qed.
Lemma mx_combine_app {A B} (l m : list A) (u v : list B) : length u = length l -> combine (l ++ m) (u ++ v) = combine l u ++ combine m v.
Proof. revert u. induction l as [|a l IH]; intros [|b u] H; try discriminate; [reflexivity|]. cbn. f_equal. apply IH. cbn in H. lia. Qed.
Lemma mx_lsum_app l m : lsum (l ++ m) = lsum l + lsum m.
Proof. induction l as [|a l IH]; cbn [app lsum]; [ring|]. rewrite IH. ring. Qed.
Lemma mx_loop (ev : list (pt * R) -> R) (l m : list (pt * R)) x : (forall u v, ev (u ++ v) = ev u + ev v) -> forall refl ii a b,
  reflect_loop ev (l ++ m) x ii refl (a + b) = reflect_loop ev l x ii refl a + reflect_loop ev m x ii refl b.
Proof.
  intros H. induction refl as [|[bd|] refl IH]; intros ii a b; cbn [reflect_loop]; [reflexivity| |apply IH]. rewrite <- IH. f_equal.
  destruct (outside bd (x ii)); [ring|]. unfold mirror. destruct (fst bd), (snd bd); cbn [opt_term]; rewrite ?map_app, ?H; ring.
Qed.
Lemma kernel_mix K pdim ddim (A B : list pt) wa wb refl params : length wa = length A -> length wb = length B ->
  res_rel3 (fun f g h => forall x, h x = f x + g x) (kernel_density K pdim ddim A (Some wa) refl params) (kernel_density K pdim ddim B (Some wb) refl params)
    (kernel_density K pdim ddim (A ++ B) (Some (wa ++ wb)) refl params).
Proof.
  intros HA HB. unfold kernel_density. destruct (match params with None => _ | Some _ => _ end) as [[n M]|e]; [|cbn; auto]. cbn [bind fst snd].
  destruct (negb (pdim =? ddim)%nat); [cbn; auto|]. rewrite !app_length, HA, HB, !Nat.eqb_refl. cbn [bind].
  destruct (minv n M) as [Mi|]; [|cbn; auto]. destruct (chol n Mi) as [W|]; [|cbn; auto]. rewrite mx_combine_app by exact HA.
  assert (EV : forall x u v, eval_numba n W (prof (k_dist K)) (u ++ v) x = eval_numba n W (prof (k_dist K)) u x + eval_numba n W (prof (k_dist K)) v x) by (intros; apply mx_sumf_app).
  destruct refl as [r|]; [|cbn; intros x; rewrite EV; unfold Rdiv; ring].
  destruct (negb (length r =? ddim)%nat); [cbn; auto|]. cbn. intros x. rewrite EV. rewrite (mx_loop (fun wd => eval_numba n W (prof (k_dist K)) wd x)) by (intros; apply EV). unfold Rdiv. ring.
Qed.
Theorem mixture : forall n A B wsa wsb st KA KB K (prob : bool) pdim given p, built_with n A wsa st KA -> built_with n B wsb st KB -> built_with n (A ++ B) (wsa ++ wsb) st K ->
  kd_kernel KA = kd_kernel K -> kd_kernel KB = kd_kernel K ->
  res_rel3 (fun f g h => forall x, h x = if prob then (lsum wsa * f x + lsum wsb * g x) / (lsum wsa + lsum wsb) else f x + g x)
    (kde_density KA prob pdim given p) (kde_density KB prob pdim given p) (kde_density K prob pdim given p).
Proof.
  intros n A B wsa wsb st KA KB K prob pdim given p (wA & bA & gA & rA & dA & cA & fA & GA & IA) (wB & bB & gB & rB & dB & cB & fB & GB & IB) (w & b & g & r & d & c & f & G & I) EkA EkB.
  destruct (kde_weights_of _ _ _ _ _ _ _ _ _ _ _ _ GA IA) as (EnA & EdA & _ & ErA & EwA & HlA & _ & HpA & EtA).
  destruct (kde_weights_of _ _ _ _ _ _ _ _ _ _ _ _ GB IB) as (EnB & EdB & _ & ErB & EwB & HlB & _ & HpB & EtB).
  destruct (kde_weights_of _ _ _ _ _ _ _ _ _ _ _ _ G I) as (En & Ed & _ & Er & Ew & Hl & _ & Hp & Et).
  clear GA IA GB IB G I wA bA gA rA dA cA fA wB bB gB rB dB cB fB w b g r d c f.
  unfold kde_density. assert (RA : resolve_params KA p = resolve_params K p) by (destruct p; unfold resolve_params; rewrite ?EnA, ?En; reflexivity).
  assert (RB : resolve_params KB p = resolve_params K p) by (destruct p; unfold resolve_params; rewrite ?EnB, ?En; reflexivity).
  rewrite RA, RB. destruct (resolve_params K p) as [ops|e]; [|cbn; auto]. cbn [bind].
  rewrite EdA, EdB, Ed, ErA, ErB, Er, EnA, EnB, En, EkA, EkB, EtA, EtB, Et. destruct (kd_kernel K) as [kern|];
    [|match goal with |- res_rel3 _ (if ?c then _ else _) _ _ => destruct c; cbn; auto end].
  match goal with |- context [kernel_density _ _ ?dd _ _ ?rr _] => set (r1 := rr); set (ddim := dd) end.
  destruct (match r1 with Some r => negb (length r =? ddim)%nat | None => false end); [cbn; auto|].
  set (sel := fun l : list pt => match ops with Some ps => map (select ps) l | None => l end).
  assert (WL : forall (l : list pt) ow, kernel_density kern pdim ddim (sel l) ow r1 ops = kernel_density kern pdim ddim (sel l) (Some (wlist l ow)) r1 ops).
  { intros l ow. rewrite kernel_density_wlist. f_equal. f_equal. unfold wlist. destruct ow as [w|]; [reflexivity|]. unfold sel. destruct ops; [apply map_map|reflexivity]. }
  change (match ops with Some ps => map (select ps) A | None => A end) with (sel A). change (match ops with Some ps => map (select ps) B | None => B end) with (sel B). change (match ops with Some ps => map (select ps) (A ++ B) | None => A ++ B end) with (sel (A ++ B)).
  rewrite (WL A (kd_weights KA)), (WL B (kd_weights KB)), (WL (A ++ B) (kd_weights K)), EwA, EwB, Ew. assert (Es : sel (A ++ B) = sel A ++ sel B) by (unfold sel; destruct ops; [apply map_app|reflexivity]). rewrite Es.
  assert (LA : length wsa = length (sel A)) by (unfold sel; destruct ops; rewrite ?map_length; exact HlA). assert (LB : length wsb = length (sel B)) by (unfold sel; destruct ops; rewrite ?map_length; exact HlB).
  pose proof (kernel_mix kern pdim ddim (sel A) (sel B) wsa wsb r1 ops LA LB) as H. revert H.
  destruct (kernel_density _ _ _ (sel A) _ _ _) as [f|], (kernel_density _ _ _ (sel B) _ _ _) as [g|], (kernel_density _ _ _ (sel A ++ sel B) _ _ _) as [h|]; cbn; try tauto.
  intros H x. rewrite mx_lsum_app in Hp |- *. destruct prob; rewrite H; [field; lra|reflexivity].
Qed.
Lemma numbers_any_neff b n1 n2 ndim diag resc : numbers_only b -> set_bandwidth n1 ndim diag b resc = set_bandwidth n2 ndim diag b resc.
Proof.
  intros H. unfold set_bandwidth. destruct b as [|a|l|isarr rows]; [destruct H| | |reflexivity].
  - destruct a; [destruct H|reflexivity|destruct H].
  - destruct (length l =? 1)%nat; [reflexivity|]. destruct (length l =? ndim)%nat; [|reflexivity].
    assert (E : mapM (compute_bandwidth n1 ndim) l = mapM (compute_bandwidth n2 ndim) l); [|rewrite E; reflexivity].
    cbn in H. induction l as [|a l IH]; [reflexivity|]. cbn. destruct (H a (or_introl eq_refl)) as [r ->]. cbn. rewrite IH; [reflexivity|]. intros a' Ha. apply H. right. exact Ha.
Qed.

Lemma given_weights n w ws (data : list pt) : length data = n -> weights_given w data ws -> length ws = n -> (forall v, In v ws -> 0 <= v) -> 0 < lsum ws -> exists ow, check_weights n w = Ok ow.
Proof.
  intros Hn [[-> _]| ->] Hl Hnn Hp; [eexists; reflexivity|]. cbn [check_weights]. rewrite map_length, Hl, Nat.eqb_refl. cbn [negb].
  assert (E : existsb f_nonzero (map Fin ws) = true).
  { clear Hl Hn. induction ws as [|v ws IH]; [cbn in Hp; lra|]. cbn. destruct (Req_dec v 0) as [->|Hv].
    - rewrite IH; [apply Bool.orb_true_r|intros u Hu; apply Hnn; right; exact Hu|cbn in Hp; lra].
    - unfold f_nonzero. destruct (Reqb_spec v 0); [contradiction|reflexivity]. }
  rewrite E. cbn [negb]. match goal with |- context [existsb ?f ?l] => assert (E2 : existsb f l = false) end.
  { clear -Hnn. induction ws as [|v ws IH]; [reflexivity|]. cbn [map existsb f_isfinite f_neg negb orb]. rewrite IH by (intros u Hu; apply Hnn; right; exact Hu). rewrite Bool.orb_false_r.
    assert (0 <= v) by (apply Hnn; left; reflexivity). cbn. apply Rltb_false. lra. }
  rewrite E2. eexists. reflexivity.
Qed.
Theorem mixture_fixed : forall n A B wa wb w wsa wsb b diag resc d C neffa st KA KB, weights_given wa A wsa -> weights_given wb B wsb -> weights_given w (A ++ B) (wsa ++ wsb) ->
  numbers_only b \/ neffa <> None ->
  kde_init n A wa b diag resc d (Some C) neffa st = Ok KA -> kde_init n B wb b diag resc d (Some C) neffa st = Ok KB ->
  exists K, kde_init n (A ++ B) w b diag resc d (Some C) neffa st = Ok K /\ forall (prob : bool) pdim given p,
    res_rel3 (fun f g h => forall x, h x = if prob then (lsum wsa * f x + lsum wsb * g x) / (lsum wsa + lsum wsb) else f x + g x)
      (kde_density KA prob pdim given p) (kde_density KB prob pdim given p) (kde_density K prob pdim given p).
Proof.
  intros n A B wa wb w wsa wsb b diag resc d C neffa st KA KB GA GB G Hb IA IB.
  destruct (kde_weights_of _ _ _ _ _ _ _ _ _ _ _ _ GA IA) as (_ & _ & HnA & _ & _ & HlA & HnnA & HpA & _).
  destruct (kde_weights_of _ _ _ _ _ _ _ _ _ _ _ _ GB IB) as (_ & _ & _ & _ & _ & HlB & HnnB & HpB & _).
  destruct (given_weights (length (A ++ B)) w (wsa ++ wsb) (A ++ B) eq_refl G) as [ow Eow]; [rewrite !app_length; lia|intros v Hv; apply in_app_or in Hv; destruct Hv; auto|rewrite mx_lsum_app; lra|].
  assert (SB : forall na nb, set_bandwidth (match neffa with Some x => x | None => na end) n diag b resc = set_bandwidth (match neffa with Some x => x | None => nb end) n diag b resc).
  { intros na nb. destruct neffa; [reflexivity|]. destruct Hb as [Hb|Hb]; [apply numbers_any_neff, Hb|contradiction]. }
  assert (NE : (length (A ++ B) =? 0)%nat = false) by (destruct A; [contradiction|reflexivity]).
  assert (HK : forall l w0 K0, kde_init n l w0 b diag resc d (Some C) neffa st = Ok K0 -> exists bw, set_bandwidth (match neffa with Some x => x | None => 0 end) n diag b resc = Ok bw /\ kd_kernel K0 = Some (kernel_init d n bw C)).
  { intros l w0 K0 H. unfold kde_init in H. destruct (length l =? 0)%nat; [discriminate|]. destruct (check_weights _ w0) as [ow0|]; [|discriminate]. cbn [bind] in H. rewrite (SB _ 0) in H.
    destruct (set_bandwidth _ _ _ _ _) as [bw|]; [|discriminate]. cbn [bind] in H. exists bw. split; [reflexivity|]. apply (f_equal (fun r => match r with Ok k => kd_kernel k | Err _ => None end)) in H. cbn in H. symmetry. exact H. }
  destruct (HK _ _ _ IA) as (bw & Eb & EkA). destruct (HK _ _ _ IB) as (bw' & Eb' & EkB). rewrite Eb in Eb'. injection Eb' as <-.
  assert (I : exists K, kde_init n (A ++ B) w b diag resc d (Some C) neffa st = Ok K). { unfold kde_init. rewrite NE, Eow. cbn [bind]. rewrite (SB _ 0), Eb. eexists. reflexivity. }
  destruct I as [K I]. destruct (HK _ _ _ I) as (bw' & Eb' & Ek). rewrite Eb in Eb'. injection Eb' as <-.
  exists K. split; [exact I|]. intros prob pdim given p. apply (mixture n A B wsa wsb st).
  - exists wa, b, diag, resc, d, (Some C), neffa. split; assumption.
  - exists wb, b, diag, resc, d, (Some C), neffa. split; assumption.
  - exists w, b, diag, resc, d, (Some C), neffa. split; assumption.
  - congruence.
  - congruence.
Qed.

(* ------------------------------------------------------------ estimated covariance *)
Lemma line_box (data : list pt) C h : data <> [] -> np_cov (wdata_of data None) = Some C -> 0 < C 0%nat 0%nat -> 0 < h ->
  exists K f, kde_init 1 data WNone (BwAtom (BNum h)) false None Box None None None = Ok K /\ kde_density K false 1 None PNone = Ok f
  /\ forall x, f x = sumf (fun p : pt => if Rle_dec ((x 0%nat - p 0%nat) * (x 0%nat - p 0%nat)) (C 0%nat 0%nat * (h * h)) then 1 else 0) data / (sqrt (C 0%nat 0%nat * (h * h)) * dist_norm Box 1).
Proof.
  intros Hne HC Hp Hh. set (M := kernel_matrix C (fun _ _ => h)). assert (HM : 0 < M 0%nat 0%nat) by (unfold M, kernel_matrix; apply Rmult_lt_0_compat; [exact Hp|apply Rmult_lt_0_compat; exact Hh]).
  assert (Hs : symmetric 1 M) by (intros i j Hi Hj; replace i with 0%nat by lia; replace j with 0%nat by lia; reflexivity).
  assert (HP : posdef 1 M). { intros v (i & Hi & Hv). replace i with 0%nat in Hv by lia. unfold quad. cbn [rsum]. rewrite !Rplus_0_l. assert (0 < v 0%nat * v 0%nat) by (apply Rsqr_pos_lt; exact Hv). replace (v 0%nat * M 0%nat 0%nat * v 0%nat) with (M 0%nat 0%nat * (v 0%nat * v 0%nat)) by ring. apply Rmult_lt_0_compat; assumption. }
  set (K := mkKDE 1 data None (neff_of (length data) None) (Some (mkKernel Box 1 M)) None).
  destruct (kernel_density_plain Box 1 M data None Hs HP) as (N & W & HN & HW & HsN & HI & _ & Hf); [discriminate|].
  eexists K, _. split; [|split].
  - unfold kde_init. destruct data; [contradiction|]. cbn [length Nat.eqb check_weights bind]. rewrite HC. reflexivity.
  - unfold kde_density, K. cbn [resolve_params bind kd_data kd_ndim kd_reflect kd_kernel kd_weights]. rewrite Hf. reflexivity.
  - intros x. cbv beta. rewrite (eval_numba_spec Box 1 N W _ x HW HsN). assert (ED : mdet 1 M = M 0%nat 0%nat) by (cbn; ring). rewrite ED, (Rabs_pos_eq (M 0%nat 0%nat)) by lra. change (M 0%nat 0%nat) with (C 0%nat 0%nat * (h * h)) in *. f_equal.
    assert (EN : N 0%nat 0%nat = / (C 0%nat 0%nat * (h * h))). { destruct (HI 0%nat 0%nat) as [E _]; [lia|lia|]. cbn [rsum] in E. rewrite Rplus_0_l in E. change (M 0%nat 0%nat) with (C 0%nat 0%nat * (h * h)) in E. unfold ident in E. cbn [Nat.eqb] in E. apply Rmult_eq_reg_l with (C 0%nat 0%nat * (h * h)); [|lra]. rewrite E. field. lra. }
    unfold spec_sum. clear Hne HC K Hf. induction data as [|p data IH]; [reflexivity|]. cbn [ones map combine]. rewrite !sumf_cons. f_equal; [|exact IH]. cbn [fst snd]. rewrite Rmult_1_l. unfold quad, psub. cbn [rsum]. rewrite !Rplus_0_l, EN.
    set (u := x 0%nat - p 0%nat). set (v := C 0%nat 0%nat * (h * h)) in *. unfold spec_prof. assert (E : u * / v * u = u * u / v) by (unfold Rdiv; ring). rewrite E.
    assert (EQ : u * u / v <= 1 <-> u * u <= v). { split; intros H.
      - apply Rmult_le_compat_r with (r := v) in H; [|lra]. replace (u * u / v * v) with (u * u) in H by (field; lra). lra.
      - apply Rmult_le_reg_r with v; [exact HM|]. replace (u * u / v * v) with (u * u) by (field; lra). lra. }
    destruct (Rle_dec (u * u / v) 1) as [L|L], (Rle_dec (u * u) v) as [L'|L']; try reflexivity; tauto.
Qed.
Theorem estimated_refuted : exists A B KA KB K f g h x, kde_init 1 A WNone (BwAtom (BNum (/ 100))) false None Box None None None = Ok KA /\ kde_density KA false 1 None PNone = Ok f
  /\ kde_init 1 B WNone (BwAtom (BNum (/ 100))) false None Box None None None = Ok KB /\ kde_density KB false 1 None PNone = Ok g
  /\ kde_init 1 (A ++ B) WNone (BwAtom (BNum (/ 100))) false None Box None None None = Ok K /\ kde_density K false 1 None PNone = Ok h
  /\ h x <> f x + g x.
Proof.
  set (A := [pt1 0; pt1 1]). set (B := [pt1 10; pt1 11]).
  assert (CA : exists C, np_cov (wdata_of A None) = Some C /\ C 0%nat 0%nat = / 2).
  { assert (E : cov_fact (wdata_of A None) = 1) by (unfold cov_fact, sumf; cbn; field). unfold np_cov. rewrite E. destruct (Rleb_spec 1 0); [lra|]. eexists. split; [reflexivity|]. unfold wmean, sumf. cbn. unfold pt1. field. }
  assert (CB : exists C, np_cov (wdata_of B None) = Some C /\ C 0%nat 0%nat = / 2).
  { assert (E : cov_fact (wdata_of B None) = 1) by (unfold cov_fact, sumf; cbn; field). unfold np_cov. rewrite E. destruct (Rleb_spec 1 0); [lra|]. eexists. split; [reflexivity|]. unfold wmean, sumf. cbn. unfold pt1. field. }
  assert (CC : exists C, np_cov (wdata_of (A ++ B) None) = Some C /\ C 0%nat 0%nat = 101 / 3).
  { assert (E : cov_fact (wdata_of (A ++ B) None) = 3) by (unfold cov_fact, sumf; cbn; field). unfold np_cov. rewrite E. destruct (Rleb_spec 3 0); [lra|]. eexists. split; [reflexivity|]. unfold wmean, sumf. cbn. unfold pt1. field. }
  destruct CA as (Ca & Ha & Va), CB as (Cb & Hb & Vb), CC as (Cc & Hc & Vc).
  destruct (line_box A Ca (/ 100)) as (KA & f & IA & FA & EA); [discriminate|exact Ha|rewrite Va; lra|lra|].
  destruct (line_box B Cb (/ 100)) as (KB & g & IB & FB & EB); [discriminate|exact Hb|rewrite Vb; lra|lra|].
  destruct (line_box (A ++ B) Cc (/ 100)) as (K & h & I & F & E); [discriminate|exact Hc|rewrite Vc; lra|lra|].
  exists A, B, KA, KB, K, f, g, h, (pt1 0). do 6 (split; [assumption|]). rewrite EA, EB, E, Va, Vb, Vc. unfold A, B. cbn [app]. rewrite !sumf_cons. unfold sumf. cbn [map lsum]. unfold pt1.
  repeat match goal with |- context [Rle_dec ?a ?b] => destruct (Rle_dec a b) as [?L|?L]; try (exfalso; lra) end.
  assert (N0 : 0 < dist_norm Box 1) by (apply dist_norm_pos; lia).
  assert (S1 : 0 < sqrt (/ 2 * (/ 100 * / 100))) by (apply sqrt_lt_R0; lra). assert (S2 : sqrt (/ 2 * (/ 100 * / 100)) < sqrt (101 / 3 * (/ 100 * / 100))) by (apply sqrt_lt_1; lra).
  set (s := sqrt (/ 2 * (/ 100 * / 100))) in *. set (t := sqrt (101 / 3 * (/ 100 * / 100))) in *. intros Q.
  assert (Q2 : s = t). { apply (f_equal (fun v => v * (s * t * dist_norm Box 1))) in Q. transitivity ((1 + (0 + (0 + (0 + 0)))) / (t * dist_norm Box 1) * (s * t * dist_norm Box 1)); [field; split; lra|]. rewrite Q. field. split; lra. }
  lra.
Qed.

(** C139, C140: what is drawn. *)
From Coq Require Import ZArith Permutation.
From Verif Require Import Base ModelLinAlg ModelKernels ModelKDE ModelUtils ModelNd ModelExtrema ModelReflect ModelApi ModelGrid ModelSample ModelPlot ModelDist ModelContour ModelCarpet ModelDraw
  SpecUtils SpecNd SpecPlot SpecSample SpecContour SpecDraw ProofUtils ProofNd ProofNd2 ProofSample ProofPlot2 ProofPlot3 ProofPlot4 ProofDist3 ProofContour.
Open Scope R_scope.
Notation length := List.length.

(* ---------------------------------------------------------------- drawings *)
Lemma dbind_ok {A B} (d : drawing A) (f : A -> drawing B) y : snd (dbind d f) = Ok y -> exists x, snd d = Ok x /\ snd (f x) = Ok y /\ fst (dbind d f) = fst d ++ fst (f x).
Proof. unfold dbind. destruct (snd d) as [x|e] eqn:E; [|discriminate]. intros H. exists x. auto. Qed.
Lemma in_dbind {A B} (d : drawing A) (f : A -> drawing B) a : In a (fst (dbind d f)) -> In a (fst d) \/ exists x, snd d = Ok x /\ In a (fst (f x)).
Proof.
  unfold dbind. destruct (snd d) as [x|e] eqn:E; [|auto]. cbn [fst]. rewrite in_app_iff. intros [H|H]; [auto|]. right. exists x. auto.
Qed.
Lemma in_dres {A B} (r : res A) (f : A -> drawing B) a : In a (fst (dbind (dres r) f)) -> exists x, r = Ok x /\ In a (fst (f x)).
Proof. intros H. apply in_dbind in H. destruct H as [[]|H]. exact H. Qed.
Lemma dres_ok {A B} (r : res A) (f : A -> drawing B) y : snd (dbind (dres r) f) = Ok y -> exists x, r = Ok x /\ snd (f x) = Ok y /\ fst (dbind (dres r) f) = fst (f x).
Proof. intros H. apply dbind_ok in H. exact H. Qed.
Lemma dres_bind {A B} (r : res A) (f : A -> drawing B) : dbind (dres r) f = match r with Ok x => f x | Err e => ([], Err e) end.
Proof. destruct r as [x|e]; [|reflexivity]. unfold dbind, dres. cbn [fst snd app]. symmetry. apply surjective_pairing. Qed.

(* ---------------------------------------------------------------- levels *)
Lemma level_entry d q : d <> [] -> In (dfm_level d q) d.
Proof.
  intros Hd. unfold dfm_level. cbv zeta.
  match goal with |- In (match rev ?l with _ => _ end) _ => destruct (rev l) as [|p r] eqn:ER end.
  - destruct d; [contradiction Hd; reflexivity|left; reflexivity].
  - apply (in_combine_r (cumsum1 d) d (fst p) (snd p)). rewrite <- surjective_pairing.
    match type of ER with rev ?l = _ => assert (In p l) as HI by (apply in_rev; rewrite ER; left; reflexivity) end. apply filter_In in HI. apply HI.
Qed.
Lemma dfm_entries a quantiles sigmas l v : dfm_levels a quantiles sigmas = Ok l -> In v (snd (fst l)) -> entry a v.
Proof.
  unfold dfm_levels. cbv zeta. fold (sorted_down a). destruct (sorted_down a) as [|x d] eqn:E; [discriminate|]. rewrite <- E. intros H. injection H as <-. cbn [fst snd].
  rewrite np_sort_in, in_map_iff. intros (q & <- & _). apply entry_iff, level_entry. rewrite E. discriminate.
Qed.
Lemma dfm_quantiles a quantiles sigmas l : dfm_levels a quantiles sigmas = Ok l -> snd l = fst (default_quantiles quantiles sigmas) /\ length (snd (fst l)) = length (snd l) /\ nondecr_list (snd (fst l)).
Proof.
  unfold dfm_levels. cbv zeta. destruct (rev (np_sort (flatten_nd a))) as [|x d] eqn:E; [discriminate|]. rewrite <- E. intros H. injection H as <-. cbn [fst snd].
  rewrite np_sort_length, map_length. split; [reflexivity|]. split; [reflexivity|]. apply np_sort_spec.
Qed.
Lemma flat_entry z v : In v (flatten_nd z) <-> entry z v.
Proof. unfold flatten_nd, entry. rewrite in_map_iff. split; intros (i & A & B); exists i; [split; [apply inb_all_idx, B|exact A]|split; [exact B|apply inb_all_idx, A]]. Qed.
Lemma arr_min_spec z v : entry z v -> least_entry z (arr_min z).
Proof.
  intros H. apply flat_entry in H. unfold arr_min. destruct (flatten_nd z) as [|x r] eqn:E; [destruct H|].
  split; [apply flat_entry; rewrite E; apply (proj1 (vmin_spec x r))|]. intros u Hu. apply flat_entry in Hu. rewrite E in Hu. apply vmin_le, Hu.
Qed.
Lemma nd_max_spec z v : entry z v -> greatest_entry z (nd_max z).
Proof.
  intros H. apply flat_entry in H. unfold nd_max. destruct (flatten_nd z) as [|x r] eqn:E; [destruct H|].
  destruct (vmax_spec x r) as [H1 H2]. split; [apply flat_entry; rewrite E; exact H1|]. intros u Hu. apply flat_entry in Hu. rewrite E in Hu. apply H2, Hu.
Qed.
Lemma big_enough_iff z : big_enough z = true <-> at_least_2x2 z.
Proof.
  unfold big_enough, at_least_2x2. destruct (shp z) as [|n [|m [|k l]]]; split; try discriminate; try (intros (a & b & E & _); discriminate E).
  - intros H. apply andb_prop in H. destruct H as [A B]. apply Nat.leb_le in A, B. exists n, m. auto.
  - intros (a & b & E & A & B). injection E as -> ->. apply andb_true_intro. split; apply Nat.leb_le; assumption.
Qed.
Lemma increasing_iff l : increasing l = true <-> incr_list l.
Proof.
  unfold incr_list. induction l as [|a l IH]; [split; [intros _ i j H1 H2; cbn in H2; lia|reflexivity]|].
  destruct l as [|b l]; [split; [intros _ i j H1 H2; cbn in H2; lia|reflexivity]|].
  cbn [increasing] in *. rewrite Bool.andb_true_iff, IH, Rltb_true. split.
  - intros [H1 H2] i j Hij Hj. destruct i as [|i], j as [|j]; try lia; cbn [nth].
    + destruct j as [|j]; [exact H1|]. cbn [length] in Hj. pose proof (H2 0%nat (S j) ltac:(lia) ltac:(cbn [length]; lia)) as Q. cbn [nth] in Q |- *. lra.
    + apply (H2 i j); cbn [length] in *; lia.
  - intros H. split; [apply (H 0%nat 1%nat); cbn [length]; lia|]. intros i j Hij Hj. apply (H (S i) (S j)); cbn [length] in *; lia.
Qed.
Lemma inner_iff z v : (exists u, entry z u) -> (andb (Rltb (arr_min z) v) (Rltb v (nd_max z)) = true <-> strictly_inside z v).
Proof.
  intros [u Hu]. destruct (arr_min_spec z u Hu) as [A1 A2]. destruct (nd_max_spec z u Hu) as [B1 B2]. rewrite Bool.andb_true_iff, !Rltb_true. split.
  - intros [H1 H2]. split; [exists (arr_min z)|exists (nd_max z)]; auto.
  - intros [(x & Hx & Lx) (y & Hy & Ly)]. pose proof (A2 x Hx). pose proof (B2 y Hy). lra.
Qed.
Lemma big_entry z : at_least_2x2 z -> exists u, entry z u.
Proof. intros (n & m & E & Hn & Hm). exists (at_ z [0; 0]%nat), [0; 0]%nat. split; [|reflexivity]. rewrite E. repeat constructor; lia. Qed.

(** Which levels are drawn. *)
Lemma mpl_levels_cases z levels :
  (~ at_least_2x2 z /\ mpl_levels z levels = Err TypeError)
  \/ (at_least_2x2 z /\ (forall v, In v levels -> ~ strictly_inside z v) /\ exists v, least_entry z v /\ mpl_levels z levels = Ok [v])
  \/ (at_least_2x2 z /\ (exists v, In v levels /\ strictly_inside z v) /\ incr_list levels /\ mpl_levels z levels = Ok levels)
  \/ (at_least_2x2 z /\ (exists v, In v levels /\ strictly_inside z v) /\ ~ incr_list levels /\ mpl_levels z levels = Err ValueError).
Proof.
  unfold mpl_levels. destruct (big_enough z) eqn:B.
  2:{ left. split; [|reflexivity]. intros H. apply big_enough_iff in H. congruence. }
  apply big_enough_iff in B. pose proof (big_entry z B) as HE. right. cbn [negb]. cbv zeta.
  destruct (existsb (fun v => andb (Rltb (arr_min z) v) (Rltb v (nd_max z))) levels) eqn:X.
  - right. apply existsb_exists in X. destruct X as (v & Hv & X). apply (inner_iff z v HE) in X.
    destruct (increasing levels) eqn:I; [left|right]; (split; [exact B|]; split; [exists v; auto|]).
    + split; [apply increasing_iff, I|reflexivity].
    + split; [|reflexivity]. intros H. apply increasing_iff in H. congruence.
  - left. split; [exact B|]. split.
    + intros v Hv H. apply (inner_iff z v HE) in H. enough (true = false) by discriminate. rewrite <- X. symmetry. apply existsb_exists. exists v. auto.
    + exists (arr_min z). split; [|reflexivity]. destruct HE as [u Hu]. apply (arr_min_spec z u Hu).
Qed.

(* ---------------------------------------------------------------- lines *)
Lemma mk_lines_length lw lv ef : length (mk_lines lw lv ef) = length lv.
Proof. unfold mk_lines. rewrite map_length, seq_length. reflexivity. Qed.
Lemma mk_lines_levels lw lv ef : map ln_level (mk_lines lw lv ef) = lv.
Proof. unfold mk_lines. rewrite map_map. cbn [ln_level]. apply nth_ext with (d := 0) (d' := 0); [rewrite map_length, seq_length; reflexivity|].
  intros i Hi. rewrite map_length, seq_length in Hi. rewrite (nth_indep _ 0 (nth 0 lv 0)) by (rewrite map_length, seq_length; exact Hi).
  rewrite (map_nth (fun i => nth i lv 0)), seq_nth by exact Hi. reflexivity.
Qed.
Lemma lowest_lines lw lv ef v : lowest_level (mk_lines lw lv ef) v <-> In v lv /\ forall u, In u lv -> v <= u.
Proof.
  unfold lowest_level. split.
  - intros [(l & Hl & E) H]. rewrite <- (mk_lines_levels lw lv ef). split; [subst v; apply in_map, Hl|]. intros u Hu. apply in_map_iff in Hu. destruct Hu as (k & <- & Hk). apply H, Hk.
  - intros [H1 H2]. rewrite <- (mk_lines_levels lw lv ef) in H1. apply in_map_iff in H1. destruct H1 as (l & E & Hl). split; [exists l; auto|].
    intros k Hk. apply H2. rewrite <- (mk_lines_levels lw lv ef). apply in_map, Hk.
Qed.

(** draw_contour2d: what is drawn, and the result. *)
Lemma contour2d_run edges hist quantiles levels pad lw alpha ol :
  (exists e, draw_contour2d edges hist quantiles levels pad lw alpha ol = ([], Err e))
  \/ exists cs h lv dl, prep_hist edges hist pad = Ok (cs, h) /\ contour_levels h quantiles levels = Ok lv /\ mpl_levels h lv = Ok dl
     /\ match ol with
        | OlFalse => let ls := mk_lines lw dl (fun _ => None) in draw_contour2d edges hist quantiles levels pad lw alpha ol = ([ALines cs h ls], Ok (cs, h, ls))
        | OlOther _ => draw_contour2d edges hist quantiles levels pad lw alpha ol = ([ALines cs h (mk_lines lw dl (fun _ => None))], Err ValueError)
        | OlTrue => match outline_effects lw alpha (length dl) with
                    | Ok effs => let ls := mk_lines lw dl (nth_error effs) in draw_contour2d edges hist quantiles levels pad lw alpha ol = ([ALines cs h ls], Ok (cs, h, ls))
                    | Err e => draw_contour2d edges hist quantiles levels pad lw alpha ol = ([ALines cs h (mk_lines lw dl (fun _ => None))], Err e)
                    end
        end.
Proof.
  unfold draw_contour2d, dbind, dres, dret, put. cbn [fst snd app].
  destruct (prep_hist edges hist pad) as [[cs h]|e]; [|left; exists e; reflexivity]. cbn [fst snd app].
  destruct (contour_levels h quantiles levels) as [lv|e] eqn:EL; [|left; exists e; reflexivity]. cbn [fst snd app].
  destruct (mpl_levels h lv) as [dl|e] eqn:EM; [|left; exists e; reflexivity]. cbn [fst snd app].
  destruct (match alpha with Some a0 => _ | None => _ end) as [[]|e] eqn:EA; [|left; exists e; reflexivity]. cbn [fst snd app].
  right. exists cs, h, lv, dl. split; [reflexivity|]. split; [exact EL|]. split; [exact EM|].
  destruct ol; cbn [fst snd app]; try reflexivity. destruct (outline_effects lw alpha (length dl)); reflexivity.
Qed.
(** In short: nothing or one set of lines. *)
Lemma contour2d_drawn edges hist quantiles levels pad lw alpha ol a : In a (fst (draw_contour2d edges hist quantiles levels pad lw alpha ol)) ->
  exists cs h lv dl ef, prep_hist edges hist pad = Ok (cs, h) /\ contour_levels h quantiles levels = Ok lv /\ mpl_levels h lv = Ok dl /\ a = ALines cs h (mk_lines lw dl ef).
Proof.
  destruct (contour2d_run edges hist quantiles levels pad lw alpha ol) as [[e E]|(cs & h & lv & dl & H1 & H2 & H3 & H)]; [rewrite E; intros []|].
  intros Ha. exists cs, h, lv, dl. enough (exists ef, a = ALines cs h (mk_lines lw dl ef)) as [ef E] by (exists ef; auto).
  destruct ol; [destruct (outline_effects lw alpha (length dl))| |]; cbv zeta in H; rewrite H in Ha; destruct Ha as [<-|[]]; eexists; reflexivity.
Qed.
Lemma contour2d_ok edges hist quantiles levels pad lw alpha ol r : snd (draw_contour2d edges hist quantiles levels pad lw alpha ol) = Ok r ->
  exists cs h lv dl ef, prep_hist edges hist pad = Ok (cs, h) /\ contour_levels h quantiles levels = Ok lv /\ mpl_levels h lv = Ok dl /\ r = (cs, h, mk_lines lw dl ef)
  /\ fst (draw_contour2d edges hist quantiles levels pad lw alpha ol) = [ALines cs h (mk_lines lw dl ef)].
Proof.
  destruct (contour2d_run edges hist quantiles levels pad lw alpha ol) as [[e E]|(cs & h & lv & dl & H1 & H2 & H3 & H)]; [rewrite E; discriminate|].
  intros Hr. exists cs, h, lv, dl. enough (exists ef, r = (cs, h, mk_lines lw dl ef) /\ fst (draw_contour2d edges hist quantiles levels pad lw alpha ol) = [ALines cs h (mk_lines lw dl ef)]) as [ef E] by (exists ef; tauto).
  destruct ol; [destruct (outline_effects lw alpha (length dl))| |]; cbv zeta in H; rewrite H in Hr |- *; try discriminate Hr; injection Hr as <-; eexists; split; reflexivity.
Qed.

(* ---------------------------------------------------------------- the white region *)
Lemma visible_in n m z v : In v (visible n m z) <-> exists i j, (i < n)%nat /\ (j < m)%nat /\ z i j = Some v.
Proof.
  unfold visible. rewrite in_flat_map. split.
  - intros (i & Hi & H). apply in_flat_map in H. destruct H as (j & Hj & H). apply in_seq in Hi, Hj. exists i, j. split; [lia|]. split; [lia|].
    destruct (z i j) as [u|]; [destruct H as [->|[]]; reflexivity|destruct H].
  - intros (i & j & Hi & Hj & E). exists i. split; [apply in_seq; lia|]. apply in_flat_map. exists j. split; [apply in_seq; lia|]. rewrite E. left. reflexivity.
Qed.
Lemma entry_2d h n m v : shp h = [n; m] -> (entry h v <-> exists i j, (i < n)%nat /\ (j < m)%nat /\ at_ h [i; j] = v).
Proof.
  intros E. unfold entry. rewrite E. split.
  - intros (idx & Hi & <-). inversion Hi as [|? ? ? i1 A H1]; subst. inversion H1 as [|? ? ? i2 B H2]; subst. inversion H2; subst. eexists _, _. split; [eassumption|]. split; [eassumption|reflexivity].
  - intros (i & j & Hi & Hj & <-). exists [i; j]. split; [repeat constructor; assumption|reflexivity].
Qed.
Lemma visible_all h : at_least_2x2 h -> exists v, visible_max (nth 0 (shp h) 0%nat) (nth 1 (shp h) 0%nat) (fun i j => Some (at_ h [i; j])) = Some v /\ greatest_entry h v.
Proof.
  intros HB. destruct HB as (n & m & E & Hn & Hm). rewrite E. cbn [nth].
  assert (HI : forall v, In v (visible n m (fun i j => Some (at_ h [i; j]))) <-> entry h v).
  { intros v. rewrite visible_in, (entry_2d h n m v E). split; intros (i & j & A & B & C); exists i, j; (split; [exact A|]; split; [exact B|]); [injection C as ->; reflexivity|rewrite C; reflexivity]. }
  unfold visible_max. destruct (visible n m (fun i j => Some (at_ h [i; j]))) as [|x r] eqn:EV.
  - exfalso. apply (HI (at_ h [0; 0]%nat)). apply (entry_2d h n m _ E). exists 0%nat, 0%nat. split; [lia|]. split; [lia|reflexivity].
  - exists (vmax x r). split; [reflexivity|]. destruct (vmax_spec x r) as [H1 H2]. split; [apply HI, H1|]. intros u Hu. apply H2, HI, Hu.
Qed.
Lemma mask_run cs h z qs :
  (big_enough h = false /\ draw_mask cs h z qs = ([], Ok tt))
  \/ (exists e, draw_mask cs h z qs = ([], Err e))
  \/ exists l lo hi, at_least_2x2 h /\ dfm_levels h (Some qs) None = Ok l /\ min_of (snd (fst l)) lo /\ hi = visible_max (nth 0 (shp h) 0%nat) (nth 1 (shp h) 0%nat) z
     /\ (forall v, hi = Some v -> lo < v) /\ draw_mask cs h z qs = ([AMask cs z lo hi], Ok tt).
Proof.
  unfold draw_mask. destruct (big_enough h) eqn:B; [|left; split; reflexivity]. right. cbn [negb]. apply big_enough_iff in B.
  unfold dbind, dres, put. cbn [fst snd]. destruct (dfm_levels h (Some qs) None) as [l|e] eqn:EL; [|left; exists e; reflexivity].
  destruct (snd (fst l)) as [|x r] eqn:El; [left; exists ValueError; reflexivity|].
  destruct (visible_max (nth 0 (shp h) 0%nat) (nth 1 (shp h) 0%nat) z) as [v|] eqn:EV.
  - destruct (Rltb_spec (vmin x r) v) as [Hv|Hv].
    + right. exists l, (vmin x r), (Some v). rewrite El. split; [exact B|]. split; [reflexivity|]. split; [apply vmin_spec|]. split; [reflexivity|]. split; [intros w E; injection E as <-; exact Hv|reflexivity].
    + left. exists ValueError. reflexivity.
  - right. exists l, (vmin x r), None. rewrite El. split; [exact B|]. split; [reflexivity|]. split; [apply vmin_spec|]. split; [reflexivity|]. split; [discriminate|reflexivity].
Qed.
Lemma mask_drawn cs h z qs a : In a (fst (draw_mask cs h z qs)) ->
  exists l lo hi, a = AMask cs z lo hi /\ at_least_2x2 h /\ dfm_levels h (Some qs) None = Ok l /\ min_of (snd (fst l)) lo
     /\ hi = visible_max (nth 0 (shp h) 0%nat) (nth 1 (shp h) 0%nat) z /\ (forall v, hi = Some v -> lo < v).
Proof.
  destruct (mask_run cs h z qs) as [[_ E]|[[e E]|(l & lo & hi & H1 & H2 & H3 & H4 & H5 & E)]]; rewrite E; [intros []|intros []|]. intros [<-|[]].
  exists l, lo, hi. split; [reflexivity|]. split; [exact H1|]. split; [exact H2|]. split; [exact H3|]. split; [exact H4|exact H5].
Qed.
(** The lowest of the levels drawn is the lower end of the region. *)
Lemma lowest_drawn h qs lv dl lo v : dfm_levels h (Some qs) None = Ok lv -> mpl_levels h (snd (fst lv)) = Ok dl -> min_of (snd (fst lv)) lo ->
  greatest_entry h v -> lo < v -> In lo dl /\ forall u, In u dl -> lo <= u.
Proof.
  intros HD HM [Hlo Hle] [Hv HG] Hlt.
  destruct (mpl_levels_cases h (snd (fst lv))) as [[_ E]|[(HB & Hno & w & [Hw Hwl] & E)|[(_ & _ & _ & E)|(_ & _ & _ & E)]]]; rewrite E in HM; try discriminate HM; injection HM as <-.
  - assert (Elo : lo = w).
    { pose proof (dfm_entries _ _ _ _ _ HD Hlo) as He. pose proof (Hwl lo He). destruct (Req_dec lo w) as [Q|Q]; [exact Q|]. exfalso. apply (Hno lo Hlo). split; [exists w; split; [exact Hw|lra]|exists v; auto]. }
    subst w. split; [left; reflexivity|]. intros u [<-|[]]. lra.
  - split; [exact Hlo|exact Hle].
Qed.

Lemma quantiles_length1 sorter l p w q : ModelUtils.quantiles sorter l (Some [p]) (Some w) false = Ok q -> length q = 1%nat.
Proof.
  unfold ModelUtils.quantiles. cbv zeta. destruct (negb _); [discriminate|]. destruct (andb _ _); [discriminate|]. destruct (Nat.ltb _ _); [discriminate|]. destruct l; [discriminate|].
  intros H. injection H as <-. reflexivity.
Qed.

(* ---------------------------------------------------------------- dist2d *)
Section Dist2d.
Variables (sorter : list (R * R) -> list (R * R)) (sel : nat -> nat -> list nat) (K : kde) (xs ys : list R) (ws : option (list R)) (ex ey : list R)
    (params : list nat) (quantiles sigmas : option (list R)) (pad : padarg) (ol : olarg) (median : bool) (scatter : numarg) (contour hist : bool)
    (mask_dense : option bool) (mask : maskarg) (flat : bool) (points : res (list (list R))).
Let d := dist2d_draw sorter sel K xs ys ws ex ey params quantiles sigmas pad ol median scatter contour hist mask_dense mask flat points.

(** The parts of the drawing. *)
Definition part_points (lim : option (option nat)) : drawing unit :=
  let pts := match lim with Some k => limited k sel (0, 0) (combine xs ys) | None => [] end in
  dwhen (match lim with Some _ => true | None => false end) (put (AScatter pts (default_alpha (length pts)))).
Definition part_medians : drawing unit :=
  dwhen median (mx <~ dres (dist2d_median sorter xs ws) ;; _ <~ put (AVline mx (ol_truth ol)) ;; my <~ dres (dist2d_median sorter ys ws) ;; put (AHline my (ol_truth ol))).
Definition part_hist (m : option R) : drawing unit :=
  let hh := hist2d_array ex ey (combine xs ys) (match ws with Some w => w | None => map (fun _ => 1) (combine xs ys) end) in
  dwhen hist (put (AHist (fun i j => if hist2d_hidden m (at_ hh [i; j]) then None else Some (at_ hh [i; j])))).
Definition first_handle (lim : option (option nat)) : handle := if hist then HHist else match lim with Some _ => HScatter | None => HNone end.
Definition part_contour (lim : option (option nat)) (qs : list R) : drawing (option (list nda * nda) * handle) :=
  if contour then
    pd <~ dres (dist2d_contour K params flat points) ;;
    r <~ draw_contour2d (rows_of (fst pd)) (snd pd) (Some qs) None pad (LwNum (3 / 2)) (Some (8 / 10)) ol ;;
    match first_handle lim with
    | HNone => match nth_error (snd r) (if Nat.ltb 0 (length (snd r)) then 1 else 0) with
               | Some l => dret (Some (fst r), HLine l)
               | None => dres (Err IndexError)
               end
    | _ => dret (Some (fst r), first_handle lim)
    end
  else dret (None, first_handle lim).
Definition part_mask (lim : option (option nat)) (m : option R) (qs : list R) (c : option (list nda * nda)) : drawing unit :=
  let hh := hist2d_array ex ey (combine xs ys) (match ws with Some w => w | None => map (fun _ => 1) (combine xs ys) end) in
  let cells := fun i j => if hist2d_hidden m (at_ hh [i; j]) then None else Some (at_ hh [i; j]) in
  dwhen (dense_masked lim contour hist mask_dense)
         (match c with
          | Some (cs, h) => draw_mask cs h (fun i j => Some (at_ h [i; j])) qs
          | None => if hist then draw_mask (map (mesh [mids ex; mids ey]) (seq 0 2)) hh cells qs
                    else ch <~ dres (prep_hist [ex; ey] hh pad) ;; draw_mask (fst ch) (snd ch) (fun i j => Some (at_ (snd ch) [i; j])) qs
          end).
Definition whole lim m qs : drawing handle := _ <~ part_points lim ;; _ <~ part_medians ;; _ <~ part_hist m ;; c <~ part_contour lim qs ;; _ <~ part_mask lim m qs (fst c) ;; dret (snd c).
Lemma draw_parts : (exists e, d = ([], Err e)) \/ exists lim m, scatter_limit scatter = Ok lim /\ let qs := fst (default_quantiles quantiles sigmas) in
  d = whole lim m qs.
Proof.
  unfold d, dist2d_draw. rewrite dres_bind. destruct (scatter_limit scatter) as [lim|e]; [|left; exists e; reflexivity]. cbv zeta.
  rewrite dres_bind.
  destruct (dfm_levels (hist2d_array ex ey (combine xs ys) (match ws with Some w => w | None => map (fun _ => 1) (combine xs ys) end)) quantiles sigmas) as [lv|e] eqn:EL; [|left; exists e; reflexivity].
  rewrite dres_bind.
  destruct (dist2d_mask (hist2d_array ex ey (combine xs ys) (match ws with Some w => w | None => map (fun _ => 1) (combine xs ys) end)) quantiles sigmas mask) as [m|e] eqn:EM; [|left; exists e; reflexivity].
  right. exists lim, m. split; [reflexivity|]. rewrite <- (proj1 (dfm_quantiles _ _ _ _ EL)). reflexivity.
Qed.
Lemma parts_in lim m qs a : In a (fst (whole lim m qs)) ->
  In a (fst (part_points lim)) \/ In a (fst part_medians) \/ In a (fst (part_hist m))
  \/ (In a (fst (part_contour lim qs)) /\ forall e, snd (part_contour lim qs) = Err e -> snd (whole lim m qs) = Err e)
  \/ exists c, snd (part_contour lim qs) = Ok c /\ In a (fst (part_mask lim m qs (fst c))).
Proof.
  intros H. unfold whole in H. apply in_dbind in H. destruct H as [H|(x1 & E1 & H)]; [auto|]. apply in_dbind in H. destruct H as [H|(x2 & E2 & H)]; [auto|].
  apply in_dbind in H. destruct H as [H|(x3 & E3 & H)]; [auto|]. apply in_dbind in H. destruct H as [H|(c & E & H)].
  - do 3 right. left. split; [exact H|]. intros e He. unfold whole. unfold dbind. rewrite E1, E2, E3, He. reflexivity.
  - do 4 right. exists c. split; [exact E|]. apply in_dbind in H. destruct H as [H|(? & _ & [])]. exact H.
Qed.
Lemma points_in lim a : In a (fst (part_points lim)) -> exists k, lim = Some k /\ let pts := limited k sel (0, 0) (combine xs ys) in a = AScatter pts (default_alpha (length pts)).
Proof. unfold part_points, dwhen, put, dret. destruct lim as [k|]; [|intros []]. intros [<-|[]]. exists k. split; reflexivity. Qed.
Lemma medians_in a : In a (fst part_medians) -> (exists x, a = AVline x (ol_truth ol) /\ dist2d_median sorter xs ws = Ok x) \/ (exists y, a = AHline y (ol_truth ol) /\ dist2d_median sorter ys ws = Ok y).
Proof.
  unfold part_medians, dwhen. destruct median; [|intros []]. intros H. apply in_dres in H. destruct H as (x & E & H). apply in_dbind in H.
  destruct H as [[<-|[]]|(? & _ & H)]; [left; exists x; auto|]. apply in_dres in H. destruct H as (y & E' & [<-|[]]). right. exists y. auto.
Qed.
Lemma hist_in m a : In a (fst (part_hist m)) -> exists c, a = AHist c.
Proof. unfold part_hist, dwhen, put, dret. destruct hist; [|intros []]. intros [<-|[]]. eexists. reflexivity. Qed.
Lemma contour_in lim qs a : In a (fst (part_contour lim qs)) -> exists cs h lv dl ef, contour_levels h (Some qs) None = Ok lv /\ mpl_levels h lv = Ok dl /\ a = ALines cs h (mk_lines (LwNum (3 / 2)) dl ef)
  /\ (ol = OlTrue \/ ol = OlFalse -> first_handle lim = HNone -> length dl = 1%nat -> snd (part_contour lim qs) = Err IndexError)
  /\ forall c, snd (part_contour lim qs) = Ok c -> fst c = Some (cs, h).
Proof.
  unfold part_contour. destruct contour; [|intros []]. intros H. apply in_dres in H. destruct H as (pd & E & H). rewrite dres_bind, E.
  apply in_dbind in H.
  assert (HT : forall (r : list nda * nda * list line) b, In b (fst (match first_handle lim with
    | HNone => match nth_error (snd r) (if Nat.ltb 0 (length (snd r)) then 1 else 0) with Some l => dret (Some (fst r), HLine l) | None => dres (Err IndexError) end
    | _ => dret (Some (fst r), first_handle lim) end)) -> False).
  { intros r b. destruct (first_handle lim); try (intros []). destruct (nth_error _ _); intros []. }
  destruct H as [H|(r & _ & H)]; [|contradiction (HT r a H)].
  destruct (contour2d_run (rows_of (fst pd)) (snd pd) (Some qs) None pad (LwNum (3 / 2)) (Some (8 / 10)) ol) as [[e E1]|(cs & h & lv & dl & H1 & H2 & H3 & H4)]; [rewrite E1 in H; destruct H|].
  exists cs, h, lv, dl. set (dc := draw_contour2d _ _ _ _ _ _ _ _) in *.
  assert (HA : exists ef, a = ALines cs h (mk_lines (LwNum (3 / 2)) dl ef) /\ (ol = OlTrue \/ ol = OlFalse -> snd dc = Ok (cs, h, mk_lines (LwNum (3 / 2)) dl ef))
     /\ forall r, snd dc = Ok r -> fst r = (cs, h)).
  { destruct ol; cbn [outline_effects] in H4; cbv zeta in H4; rewrite H4 in H |- *; destruct H as [<-|[]]; eexists; (split; [reflexivity|]);
      (split; [try reflexivity; intros [Q|Q]; discriminate Q|]); cbn [snd]; intros r Q; try discriminate Q; injection Q as <-; reflexivity. }
  destruct HA as (ef & Ea & HS & HF). exists ef. split; [exact H2|]. split; [exact H3|]. split; [exact Ea|]. split.
  - intros Ho Hh Hl. unfold dbind. rewrite (HS Ho). cbn [snd fst]. rewrite Hh. rewrite mk_lines_length, Hl. cbn [Nat.ltb Nat.leb].
    rewrite (proj2 (nth_error_None _ _)) by (rewrite mk_lines_length, Hl; lia). reflexivity.
  - intros c Hc. unfold dbind in Hc. destruct (snd dc) as [r|] eqn:Er; [|discriminate Hc]. cbn [snd] in Hc. pose proof (HF r eq_refl) as Q.
    destruct (first_handle lim); try (injection Hc as <-; cbn [fst]; rewrite Q; reflexivity).
    destruct (nth_error _ _); [|discriminate Hc]. injection Hc as <-. cbn [fst]. rewrite Q. reflexivity.
Qed.

(** The lower end of the white region is the outermost contour. *)
Lemma dist2d_mask_edge cs z lines cs' z' lo hi : In (ALines cs z lines) (fst d) -> In (AMask cs' z' lo hi) (fst d) ->
  cs' = cs /\ (forall i j, z' i j = Some (at_ z [i; j])) /\ lowest_level lines lo /\ exists v, hi = Some v /\ greatest_entry z v /\ lo < v.
Proof.
  destruct draw_parts as [[e E]|(lim & m & Hlim & E)]; [rewrite E; intros []|]. cbv zeta in E. rewrite E. set (qs := fst (default_quantiles quantiles sigmas)) in *.
  intros H1 H2. apply parts_in in H1, H2.
  assert (HC : In (ALines cs z lines) (fst (part_contour lim qs))).
  { destruct H1 as [H1|[H1|[H1|[[H1 _]|(c & _ & H1)]]]].
    - apply points_in in H1. destruct H1 as (k & _ & Q). discriminate Q.
    - apply medians_in in H1. destruct H1 as [(x & Q & _)|(x & Q & _)]; discriminate Q.
    - apply hist_in in H1. destruct H1 as (x & Q). discriminate Q.
    - exact H1.
    - exfalso. unfold part_mask, dwhen in H1. destruct (dense_masked _ _ _ _); [|destruct H1].
      destruct (fst c) as [[cs0 h0]|]; [|destruct hist; [|apply in_dres in H1; destruct H1 as (ch & _ & H1)]]; apply mask_drawn in H1; destruct H1 as (? & ? & ? & Q & _); discriminate Q. }
  destruct (contour_in _ _ _ HC) as (cs0 & h & lv & dl & ef & L1 & L2 & Ea & _ & HF). injection Ea as <- <- ->.
  destruct H2 as [H2|[H2|[H2|[[H2 _]|(c & Ec & H2)]]]].
  - apply points_in in H2. destruct H2 as (k & _ & Q). discriminate Q.
  - apply medians_in in H2. destruct H2 as [(x & Q & _)|(x & Q & _)]; discriminate Q.
  - apply hist_in in H2. destruct H2 as (x & Q). discriminate Q.
  - apply contour_in in H2. destruct H2 as (? & ? & ? & ? & ? & _ & _ & Q & _). discriminate Q.
  - rewrite (HF c Ec) in H2. unfold part_mask, dwhen in H2. destruct (dense_masked _ _ _ _); [|destruct H2].
    apply mask_drawn in H2. destruct H2 as (l & lo' & hi' & Q & HB & HD & Hmin & Hhi & Hlt). injection Q as -> -> <- <-.
    destruct (visible_all z HB) as (v & Ev & Hv). rewrite Ev in Hhi. split; [reflexivity|]. split; [reflexivity|].
    cbn [contour_levels] in L1. rewrite HD in L1. cbn [bind] in L1. injection L1 as <-.
    split; [|exists v; split; [exact Hhi|]; split; [exact Hv|apply Hlt, Hhi]].
    apply lowest_lines. apply (lowest_drawn z qs l dl lo v HD L2 Hmin Hv (Hlt v Hhi)).
Qed.

(** One contour alone. *)
Lemma dist2d_one_contour : scatter = NaNone \/ scatter = NaFalse -> hist = false -> contour = true -> length (fst (default_quantiles quantiles sigmas)) = 1%nat ->
  (exists e, snd d = Err e) /\ forall cs z lines, ol = OlTrue \/ ol = OlFalse -> In (ALines cs z lines) (fst d) -> snd d = Err IndexError.
Proof.
  intros Hs Hh Hc Hq. destruct draw_parts as [[e E]|(lim & m & Hlim & E)]; [rewrite E; split; [exists e; reflexivity|intros ? ? ? _ []]|]. cbv zeta in E. rewrite E.
  set (qs := fst (default_quantiles quantiles sigmas)) in *.
  assert (El : lim = None) by (destruct Hs as [-> | ->]; injection Hlim as <-; reflexivity).
  assert (HN : first_handle lim = HNone) by (unfold first_handle; rewrite Hh, El; reflexivity).
  assert (HLen : forall h lv dl, contour_levels h (Some qs) None = Ok lv -> mpl_levels h lv = Ok dl -> length dl = 1%nat).
  { intros h lv dl H1 H2. cbn [contour_levels] in H1. destruct (dfm_levels h (Some qs) None) as [l|] eqn:EL; [|discriminate H1]. cbn [bind] in H1. injection H1 as <-.
    destruct (dfm_quantiles _ _ _ _ EL) as (Q1 & Q2 & _). cbn [default_quantiles fst] in Q1.
    destruct (mpl_levels_cases h (snd (fst l))) as [[_ E1]|[(_ & _ & w & _ & E1)|[(_ & _ & _ & E1)|(_ & _ & _ & E1)]]]; rewrite E1 in H2; try discriminate H2; injection H2 as <-; [reflexivity|].
    rewrite Q2, Q1. exact Hq. }
  assert (HC : exists e, snd (part_contour lim qs) = Err e).
  { unfold part_contour. rewrite Hc, dres_bind. destruct (dist2d_contour K params flat points) as [pd|e]; [|exists e; reflexivity]. unfold dbind.
    destruct (snd (draw_contour2d _ _ _ _ _ _ _ _)) as [r|e] eqn:Er; [|exists e; reflexivity]. cbn [snd]. rewrite HN.
    apply contour2d_ok in Er. destruct Er as (cs & h & lv & dl & ef & _ & H2 & H3 & -> & _). cbn [snd fst]. rewrite mk_lines_length, (HLen h lv dl H2 H3). cbn [Nat.ltb Nat.leb].
    rewrite (proj2 (nth_error_None _ _)) by (rewrite mk_lines_length, (HLen h lv dl H2 H3); lia). exists IndexError. reflexivity. }
  destruct HC as [e He]. split.
  - destruct (snd (whole lim m qs)) as [r|e'] eqn:Er; [|exists e'; reflexivity]. exfalso. unfold whole in Er.
    apply dbind_ok in Er. destruct Er as (? & _ & Er & _). apply dbind_ok in Er. destruct Er as (? & _ & Er & _). apply dbind_ok in Er. destruct Er as (? & _ & Er & _).
    apply dbind_ok in Er. destruct Er as (? & Q & _). congruence.
  - intros cs z lines Ho HI. apply parts_in in HI.
    destruct HI as [H1|[H1|[H1|[[H1 HE]|(c & Q & H1)]]]].
    + apply points_in in H1. destruct H1 as (k & _ & Q). discriminate Q.
    + apply medians_in in H1. destruct H1 as [(x & Q & _)|(x & Q & _)]; discriminate Q.
    + apply hist_in in H1. destruct H1 as (x & Q). discriminate Q.
    + apply HE. apply contour_in in H1. destruct H1 as (cs' & h & lv & dl & ef & L1 & L2 & _ & HI & _). apply (HI Ho HN (HLen h lv dl L1 L2)).
    + congruence.
Qed.

(** What is drawn if there is no error. *)
Lemma dist2d_components hd : snd d = Ok hd -> exists masked,
  map kind_of (fst d) = only (asked scatter) [KScatter] ++ only median [KVline; KHline] ++ only hist [KHist] ++ only contour [KLines] ++ only masked [KMask]
  /\ (forall b, mask_dense = Some b -> (b = false -> masked = false) /\ (b = true -> contour = true -> masked = true))
  /\ (mask_dense = None -> (asked scatter = false \/ (hist = false /\ contour = false) -> masked = false) /\ (asked scatter = true -> contour = true -> masked = true))
  /\ match hd with HNone => asked scatter = false /\ hist = false /\ contour = false
     | HScatter => asked scatter = true /\ hist = false
     | HHist => hist = true
     | HLine l => asked scatter = false /\ hist = false /\ exists cs z lines, In (ALines cs z lines) (fst d) /\ nth_error lines 1 = Some l end.
Proof.
  destruct draw_parts as [[e E]|(lim & m & Hlim & E)]; [rewrite E; discriminate|]. cbv zeta in E. rewrite E.
  set (qs := fst (default_quantiles quantiles sigmas)) in *. unfold whole. intros H.
  assert (HA : asked scatter = match lim with Some _ => true | None => false end).
  { destruct scatter; cbn in Hlim |- *; try (injection Hlim as <-; reflexivity). destruct (trunc_int r <? 1)%Z; [discriminate Hlim|injection Hlim as <-; reflexivity]. }
  apply dbind_ok in H. destruct H as (u1 & E1 & H & ->). apply dbind_ok in H. destruct H as (u2 & E2 & H & ->). apply dbind_ok in H. destruct H as (u3 & E3 & H & ->).
  apply dbind_ok in H. destruct H as (c & E4 & H & ->). apply dbind_ok in H. destruct H as (u5 & E5 & H & ->). cbn [dret snd fst] in H |- *. injection H as <-. rewrite app_nil_r.
  assert (P1 : map kind_of (fst (part_points lim)) = only (asked scatter) [KScatter]) by (rewrite HA; unfold part_points; destruct lim; reflexivity).
  assert (P2 : map kind_of (fst part_medians) = only median [KVline; KHline]).
  { unfold part_medians in *. destruct median; [|reflexivity]. cbn [dwhen] in *. apply dres_ok in E2. destruct E2 as (x & _ & E2 & ->). apply dbind_ok in E2. destruct E2 as (? & _ & E2 & ->).
    apply dres_ok in E2. destruct E2 as (y & _ & _ & ->). reflexivity. }
  assert (P3 : map kind_of (fst (part_hist m)) = only hist [KHist]) by (unfold part_hist; destruct hist; reflexivity).
  assert (P4 : map kind_of (fst (part_contour lim qs)) = only contour [KLines] /\
     ((contour = false /\ c = (None, first_handle lim)) \/ (contour = true /\ exists cs z lines, In (ALines cs z lines) (fst (part_contour lim qs)) /\ at_least_2x2 z /\ fst c = Some (cs, z)
        /\ ((snd c = first_handle lim /\ first_handle lim <> HNone) \/ (first_handle lim = HNone /\ exists l, snd c = HLine l /\ nth_error lines 1 = Some l))))).
  { unfold part_contour in *. destruct contour; [|split; [reflexivity|left; split; [reflexivity|injection E4 as <-; reflexivity]]].
    apply dres_ok in E4. destruct E4 as (pd & _ & E4 & ->). apply dbind_ok in E4. destruct E4 as (r & Er & E4 & ->).
    apply contour2d_ok in Er. destruct Er as (cs & h & lv & dl & ef & _ & L1 & L2 & -> & ->). cbn [fst snd] in *. rewrite mk_lines_length in *.
    set (k := if Nat.ltb 0 (length dl) then 1%nat else 0%nat) in *.
    assert (Hbig : at_least_2x2 h).
    { destruct (mpl_levels_cases h lv) as [[_ E0]|[(B & _)|[(B & _)|(B & _)]]]; [rewrite E0 in L2; discriminate L2|exact B..]. }
    assert (Hk : forall l, nth_error (mk_lines (LwNum (3 / 2)) dl ef) k = Some l -> k = 1%nat).
    { intros l Q. unfold k in *. destruct (Nat.ltb_spec 0 (length dl)) as [_|Z]; [reflexivity|]. exfalso. assert (nth_error (mk_lines (LwNum (3 / 2)) dl ef) 0 <> None) as Q' by congruence.
      apply nth_error_Some in Q'. rewrite mk_lines_length in Q'. lia. }
    split.
    - destruct (first_handle lim); [|reflexivity..]. destruct (nth_error (mk_lines (LwNum (3 / 2)) dl ef) k); reflexivity.
    - right. split; [reflexivity|]. exists cs, h, (mk_lines (LwNum (3 / 2)) dl ef). split; [left; reflexivity|]. split; [exact Hbig|].
      destruct (first_handle lim); try (injection E4 as <-; cbn [fst snd]; split; [reflexivity|left; split; [reflexivity|discriminate]]).
      destruct (nth_error (mk_lines (LwNum (3 / 2)) dl ef) k) as [l|] eqn:En; [|discriminate E4]. injection E4 as <-. cbn [fst snd]. split; [reflexivity|]. right. split; [reflexivity|].
      exists l. split; [reflexivity|]. rewrite <- (Hk l eq_refl). exact En. }
  destruct P4 as [P4 P4'].
  assert (P5 : exists masked, map kind_of (fst (part_mask lim m qs (fst c))) = only masked [KMask] /\ (dense_masked lim contour hist mask_dense = false -> masked = false)
      /\ (dense_masked lim contour hist mask_dense = true -> contour = true -> masked = true)).
  { unfold part_mask in *. destruct (dense_masked lim contour hist mask_dense) eqn:ED; [|exists false; split; [reflexivity|split; [reflexivity|discriminate]]].
    cbn [dwhen] in *.
    assert (HM : forall cs h z, snd (draw_mask cs h z qs) = Ok u5 -> exists masked, map kind_of (fst (draw_mask cs h z qs)) = only masked [KMask] /\ (at_least_2x2 h -> masked = true)).
    { intros cs h z Q. destruct (mask_run cs h z qs) as [[B Q']|[[e' Q']|(l & lo & hi & B & _ & _ & _ & _ & Q')]]; rewrite Q' in *.
      - exists false. split; [reflexivity|]. intros B'. apply big_enough_iff in B'. congruence.
      - discriminate Q.
      - exists true. split; reflexivity. }
    destruct P4' as [[-> ->]|(-> & cs & z & lines & _ & B & Ec & _)].
    - cbn [fst] in *. enough (exists masked, map kind_of (fst (if hist then draw_mask (map (mesh [mids ex; mids ey]) (seq 0 2)) (hist2d_array ex ey (combine xs ys) (match ws with Some w => w | None => map (fun _ => 1) (combine xs ys) end))
          (fun i j => if hist2d_hidden m (at_ (hist2d_array ex ey (combine xs ys) (match ws with Some w => w | None => map (fun _ => 1) (combine xs ys) end)) [i; j]) then None
             else Some (at_ (hist2d_array ex ey (combine xs ys) (match ws with Some w => w | None => map (fun _ => 1) (combine xs ys) end)) [i; j])) qs
          else ch <~ dres (prep_hist [ex; ey] (hist2d_array ex ey (combine xs ys) (match ws with Some w => w | None => map (fun _ => 1) (combine xs ys) end)) pad) ;; draw_mask (fst ch) (snd ch) (fun i j => Some (at_ (snd ch) [i; j])) qs)) = only masked [KMask]) as [mk Q].
      { exists mk. split; [exact Q|]. split; discriminate. }
      destruct hist.
      + destruct (HM _ _ _ E5) as (mk & Q & _). exists mk. exact Q.
      + apply dres_ok in E5. destruct E5 as (ch & _ & E5 & ->). destruct (HM _ _ _ E5) as (mk & Q & _). exists mk. exact Q.
    - rewrite Ec in *. destruct (HM _ _ _ E5) as (mk & Q & Hmk). exists mk. split; [exact Q|]. split; [discriminate|]. intros _ _. apply Hmk, B. }
  destruct P5 as (masked & P5 & M1 & M2). exists masked. rewrite !map_app, P1, P2, P3, P4, P5. split; [reflexivity|]. split; [|split].
  - intros b ->. cbn [dense_masked] in M1, M2. split; [intros ->; apply M1; reflexivity|intros -> Hc; apply M2; [reflexivity|exact Hc]].
  - intros ->. cbn [dense_masked] in M1, M2. rewrite <- HA in M1, M2. split.
    + intros [Q|[-> ->]]; apply M1; [rewrite Q; reflexivity|apply Bool.andb_false_r].
    + intros Qa Qc. apply M2; [rewrite Qa, Qc, Bool.orb_true_r; reflexivity|exact Qc].
  - clear Hlim E. unfold first_handle in P4'. destruct P4' as [[-> ->]|(Hc & cs & z & lines & HI & _ & _ & [[-> HN]|[HN (l & -> & Hl)]])]; cbn [snd].
    + destruct hist; [reflexivity|]. destruct lim; rewrite HA; [split; reflexivity|]. split; [reflexivity|]. split; reflexivity.
    + destruct hist; [reflexivity|]. destruct lim; [rewrite HA; split; reflexivity|]. contradiction HN; reflexivity.
    + destruct hist; [discriminate HN|]. destruct lim; [discriminate HN|]. split; [exact HA|]. split; [reflexivity|]. exists cs, z, lines. split; [|exact Hl].
      apply in_or_app. right. apply in_or_app. right. apply in_or_app. right. apply in_or_app. left. exact HI.
Qed.
(** Points and medians. *)
Lemma dist2d_points pts al : chooses sel -> In (AScatter pts al) (fst d) ->
  (forall p, In p pts -> In p (combine xs ys)) /\ (scatter = NaTrue -> pts = combine xs ys)
  /\ (forall r, scatter = NaNum r -> exists k, (1 <= k)%nat /\ INR k <= r < INR k + 1 /\ length pts = Nat.min k (length (combine xs ys))
       /\ exists is, NoDup is /\ (forall i, In i is -> (i < length (combine xs ys))%nat) /\ pts = map (fun i => nth i (combine xs ys) (0, 0)) is)
  /\ 0 < al <= 1 /\ ((length pts <= 100)%nat -> al = 1).
Proof.
  intros Hsel. destruct draw_parts as [[e E]|(lim & m & Hlim & E)]; [rewrite E; intros []|]. cbv zeta in E. rewrite E.
  set (qs := fst (default_quantiles quantiles sigmas)) in *. intros H. apply parts_in in H.
  assert (H1 : In (AScatter pts al) (fst (part_points lim))).
  { destruct H as [H|[H|[H|[[H _]|(c & _ & H)]]]]; [exact H|exfalso..].
    - apply medians_in in H. destruct H as [(x & Q & _)|(x & Q & _)]; discriminate Q.
    - apply hist_in in H. destruct H as (x & Q). discriminate Q.
    - apply contour_in in H. destruct H as (? & ? & ? & ? & ? & _ & _ & Q & _). discriminate Q.
    - unfold part_mask, dwhen in H. destruct (dense_masked _ _ _ _); [|destruct H].
      destruct (fst c) as [[cs0 h0]|]; [|destruct hist; [|apply in_dres in H; destruct H as (ch & _ & H)]]; apply mask_drawn in H; destruct H as (? & ? & ? & Q & _); discriminate Q. }
  apply points_in in H1. destruct H1 as (k & -> & Q). cbv zeta in Q. injection Q as -> ->.
  pose proof (limited_points (R * R) k sel (0, 0) (combine xs ys) Hsel) as HL.
  split; [|split; [|split]].
  - intros p Hp. destruct k as [k|]; [|rewrite HL in Hp; exact Hp]. destruct HL as (_ & (is & _ & Hi & Q) & _). rewrite Q in Hp. apply in_map_iff in Hp. destruct Hp as (i & <- & Hi'). apply nth_In, Hi, Hi'.
  - intros ->. cbn in Hlim. injection Hlim as <-. exact HL.
  - intros r ->. destruct scatter_limit_cases as (_ & _ & _ & HF & HO). destruct (Rlt_or_le r 1) as [Hr|Hr]; [rewrite (HF r Hr) in Hlim; discriminate Hlim|].
    destruct (HO r Hr) as (k' & Q & K1 & K2). rewrite Q in Hlim. injection Hlim as <-. exists k'. split; [exact K1|]. split; [exact K2|]. split; [apply HL|]. apply HL.
  - unfold default_alpha. set (n := length _). destruct (Nat.eqb_spec n 0) as [Z|Z]; [split; [lra|reflexivity]|].
    assert (Hn : 0 < INR n) by (apply lt_0_INR; lia). assert (Hs : 0 < sqrt (INR n)) by (apply sqrt_lt_R0, Hn).
    assert (Hq : 0 < 10 / sqrt (INR n)) by (apply Rdiv_lt_0_compat; lra). rewrite (Rmax_left _ 0) by lra. split.
    + split; [apply Rmin_glb_lt; lra|apply Rmin_r].
    + intros H100. apply Rmin_right. apply (Rmult_le_reg_r (sqrt (INR n))); [exact Hs|]. unfold Rdiv. rewrite Rmult_assoc, Rinv_l by lra. rewrite Rmult_1_l, Rmult_1_r.
      replace 10 with (sqrt 100) by (replace 100 with (10 * 10) by lra; apply sqrt_square; lra). apply sqrt_le_1_alt. replace 100 with (INR 100) by (rewrite INR_IZR_INZ; reflexivity). apply le_INR, H100.
Qed.
Lemma np_median_of l : l <> [] -> median_of l (np_median l).
Proof.
  intros Hl. exists (np_sort l). split; [apply np_sort_spec|]. unfold np_median, vget. cbv zeta. assert (L : (0 < length l)%nat) by (destruct l; [contradiction Hl; reflexivity|cbn; lia]).
  destruct (Nat.even (length l)) eqn:EV.
  - apply Nat.even_spec in EV. destruct EV as [k Ek]. replace ((length l - 1) / 2)%nat with (length l / 2 - 1)%nat; [reflexivity|].
    rewrite Ek. replace (2 * k)%nat with (k * 2)%nat by lia. rewrite Nat.div_mul by lia. apply (Nat.div_unique (k * 2 - 1) 2 (k - 1) 1); lia.
  - assert (OD : Nat.odd (length l) = true) by (unfold Nat.odd; rewrite EV; reflexivity). apply Nat.odd_spec in OD. destruct OD as [k Ek].
    replace ((length l - 1) / 2)%nat with (length l / 2)%nat; [lra|]. rewrite Ek. replace (2 * k + 1 - 1)%nat with (k * 2)%nat by lia. rewrite Nat.div_mul by lia.
    symmetry. apply (Nat.div_unique (2 * k + 1) 2 k 1); lia.
Qed.
Lemma median_in a : (exists v o, a = AVline v o) \/ (exists v o, a = AHline v o) -> In a (fst d) -> In a (fst part_medians).
Proof.
  intros Ha. destruct draw_parts as [[e E]|(lim & m & Hlim & E)]; [rewrite E; intros []|]. cbv zeta in E. rewrite E.
  intros H. apply parts_in in H. destruct H as [H|[H|[H|[[H _]|(c & _ & H)]]]]; [exfalso|exact H|exfalso..].
  - apply points_in in H. destruct H as (k & _ & ->). destruct Ha as [(? & ? & Q)|(? & ? & Q)]; discriminate Q.
  - apply hist_in in H. destruct H as (x & ->). destruct Ha as [(? & ? & Q)|(? & ? & Q)]; discriminate Q.
  - apply contour_in in H. destruct H as (? & ? & ? & ? & ? & _ & _ & -> & _). destruct Ha as [(? & ? & Q)|(? & ? & Q)]; discriminate Q.
  - unfold part_mask, dwhen in H. destruct (dense_masked _ _ _ _); [|destruct H].
    destruct (fst c) as [[cs0 h0]|]; [|destruct hist; [|apply in_dres in H; destruct H as (ch & _ & H)]]; apply mask_drawn in H; destruct H as (? & ? & ? & -> & _); destruct Ha as [(? & ? & Q)|(? & ? & Q)]; discriminate Q.
Qed.
Lemma dist2d_median_lines : (forall x o, In (AVline x o) (fst d) -> o = ol_truth ol /\ (ws = None -> xs <> [] -> median_of xs x) /\ forall w, ws = Some w -> ModelUtils.quantiles sorter xs (Some [1 / 2]) (Some w) false = Ok [x])
  /\ (forall y o, In (AHline y o) (fst d) -> o = ol_truth ol /\ (ws = None -> ys <> [] -> median_of ys y) /\ forall w, ws = Some w -> ModelUtils.quantiles sorter ys (Some [1 / 2]) (Some w) false = Ok [y]).
Proof.
  assert (HM : forall l v, dist2d_median sorter l ws = Ok v -> (ws = None -> l <> [] -> median_of l v) /\ forall w, ws = Some w -> ModelUtils.quantiles sorter l (Some [1 / 2]) (Some w) false = Ok [v]).
  { intros l v H. unfold dist2d_median in H. destruct ws as [w0|].
    - split; [discriminate|]. intros w Q. injection Q as <-. destruct (ModelUtils.quantiles sorter l (Some [1 / 2]) (Some w0) false) as [q|] eqn:Eq; [|discriminate H]. cbn [bind] in H. injection H as <-.
      assert (L : length q = 1%nat) by (eapply quantiles_length1, Eq). destruct q as [|a [|b q]]; try discriminate L. reflexivity.
    - injection H as <-. split; [intros _; apply np_median_of|discriminate]. }
  split; intros v o H; (apply median_in in H; [|eauto]); apply medians_in in H; destruct H as [(x & Q & H)|(x & Q & H)]; try discriminate Q; injection Q as -> ->; split; try reflexivity; apply HM, H.
Qed.
End Dist2d.

(* ---------------------------------------------------------------- outlines *)
Lemma mk_lines_nth lw dl ef l : In l (mk_lines lw dl ef) -> exists i, (i < length dl)%nat /\ nth_error (mk_lines lw dl ef) i = Some l /\ l = mkLine (nth i dl 0) (mpl_width lw i) (ef i).
Proof.
  intros H. apply In_nth_error in H. destruct H as [i H]. assert (Hi : (i < length dl)%nat) by (rewrite <- (mk_lines_length lw dl ef); apply nth_error_Some; congruence).
  exists i. split; [exact Hi|]. split; [exact H|]. unfold mk_lines in H. rewrite (map_nth_error _ i (seq 0 (length dl)) (d := i)) in H; [injection H as <-; reflexivity|].
  rewrite (nth_error_nth' _ 0%nat) by (rewrite seq_length; exact Hi). rewrite seq_nth by exact Hi. reflexivity.
Qed.
Lemma mk_lines_at lw dl ef i : (i < length dl)%nat -> nth_error (mk_lines lw dl ef) i = Some (mkLine (nth i dl 0) (mpl_width lw i) (ef i)).
Proof.
  intros Hi. unfold mk_lines. apply (map_nth_error (fun i => mkLine (nth i dl 0) (mpl_width lw i) (ef i))). rewrite (nth_error_nth' _ 0%nat) by (rewrite seq_length; exact Hi). rewrite seq_nth by exact Hi. reflexivity.
Qed.
Lemma outline_alpha_spec a : 0 <= a <= 1 -> 0 <= outline_alpha a <= a /\ 1 - (1 - outline_alpha a) * (1 - outline_alpha a) = a.
Proof.
  intros Ha. unfold outline_alpha. pose proof (sqrt_pos (1 - a)) as P. pose proof (sqrt_sqrt (1 - a) ltac:(lra)) as Q.
  assert (sqrt (1 - a) <= 1) by (rewrite <- sqrt_1 at 2; apply sqrt_le_1_alt; lra). assert (sqrt (1 - a) * sqrt (1 - a) <= sqrt (1 - a)) by (rewrite <- (Rmult_1_r (sqrt (1 - a))) at 3; apply Rmult_le_compat_l; lra).
  split; [lra|]. replace (1 - (1 - sqrt (1 - a))) with (sqrt (1 - a)) by lra. lra.
Qed.
Lemma nth_error_rep {A} (x : A) : forall n i, (i < n)%nat -> nth_error (repeat x n) i = Some x.
Proof. induction n as [|n IH]; intros [|i] H; try lia; [reflexivity|]. apply IH. lia. Qed.
Lemma contour2d_true edges hist quantiles levels pad lw alpha r : snd (draw_contour2d edges hist quantiles levels pad lw alpha OlTrue) = Ok r ->
  exists dl effs, snd r = mk_lines lw dl (nth_error effs) /\ outline_effects lw alpha (length dl) = Ok effs.
Proof.
  destruct (contour2d_run edges hist quantiles levels pad lw alpha OlTrue) as [[e E]|(cs & h & lv & dl & H1 & H2 & H3 & H)]; [rewrite E; discriminate|].
  intros Hr. destruct (outline_effects lw alpha (length dl)) as [effs|] eqn:EO; cbv zeta in H; rewrite H in Hr; [|discriminate Hr]. injection Hr as <-. exists dl, effs. split; [reflexivity|exact EO].
Qed.
Lemma outline_number edges hist quantiles levels pad w a r : 0 <= a <= 1 -> snd (draw_contour2d edges hist quantiles levels pad (LwNum w) (Some a) OlTrue) = Ok r ->
  forall l, In l (snd r) -> outlined a l w.
Proof.
  intros Ha H. destruct (contour2d_true _ _ _ _ _ _ _ _ H) as (dl & effs & E & EO). cbn [outline_effects] in EO. injection EO as <-. rewrite E. intros l Hl.
  destruct (mk_lines_nth _ _ _ _ Hl) as (i & Hi & _ & ->). cbn [outlined ln_width ln_outline mpl_width]. split; [reflexivity|].
  exists (outline_alpha a). rewrite nth_error_rep by exact Hi. split; [reflexivity|]. apply outline_alpha_spec, Ha.
Qed.
Lemma outline_list edges hist quantiles levels pad ls a r : 0 <= a <= 1 -> snd (draw_contour2d edges hist quantiles levels pad (LwList ls) (Some a) OlTrue) = Ok r ->
  length ls = length (snd r) -> forall i l w, nth_error (snd r) i = Some l -> nth_error ls i = Some w -> outlined a l w.
Proof.
  intros Ha H. destruct (contour2d_true _ _ _ _ _ _ _ _ H) as (dl & effs & E & EO). rewrite E, mk_lines_length. intros HL i l w Hl Hw. cbn [outline_effects] in EO. rewrite (proj2 (Nat.eqb_eq _ _) HL) in EO. injection EO as <-.
  assert (Hi : (i < length dl)%nat) by (rewrite <- HL; apply nth_error_Some; congruence). rewrite mk_lines_at in Hl by exact Hi. injection Hl as <-.
  split; cbn [ln_width ln_outline mpl_width].
  - rewrite Nat.mod_small by lia. exact Hw.
  - exists (outline_alpha a). rewrite (map_nth_error _ _ _ Hw). split; [reflexivity|]. apply outline_alpha_spec, Ha.
Qed.
(** A list of another length: the widths are repeated, the outlines all have width 3. *)
Lemma outline_other edges hist quantiles levels pad ls a r : 0 <= a <= 1 -> ls <> [] -> snd (draw_contour2d edges hist quantiles levels pad (LwList ls) (Some a) OlTrue) = Ok r ->
  length ls <> length (snd r) -> forall i l, nth_error (snd r) i = Some l -> ln_width l = nth_error ls (i mod length ls) /\ exists o, ln_outline l = Some (3, o).
Proof.
  intros Ha Hne H. destruct (contour2d_true _ _ _ _ _ _ _ _ H) as (dl & effs & E & EO). rewrite E, mk_lines_length. intros HL i l Hl. cbn [outline_effects] in EO. rewrite (proj2 (Nat.eqb_neq _ _) HL) in EO. injection EO as <-.
  assert (Hi : (i < length dl)%nat) by (rewrite <- (mk_lines_length (LwList ls) dl (nth_error (repeat (2 * (3 / 2), outline_alpha a) (length dl)))); apply nth_error_Some; congruence).
  rewrite mk_lines_at in Hl by exact Hi. injection Hl as <-. cbn [ln_width ln_outline mpl_width]. split; [reflexivity|]. exists (outline_alpha a). rewrite nth_error_rep by exact Hi. do 2 f_equal. lra.
Qed.
Lemma no_outline edges hist quantiles levels pad lw alpha r : snd (draw_contour2d edges hist quantiles levels pad lw alpha OlFalse) = Ok r -> forall l, In l (snd r) -> ln_outline l = None.
Proof.
  destruct (contour2d_run edges hist quantiles levels pad lw alpha OlFalse) as [[e E]|(cs & h & lv & dl & H1 & H2 & H3 & H)]; [rewrite E; discriminate|].
  cbv zeta in H. rewrite H. intros E l Hl. injection E as <-. destruct (mk_lines_nth _ _ _ _ Hl) as (i & _ & _ & ->). reflexivity.
Qed.
(** Which levels are drawn, and when there is an error. *)
Lemma contour2d_levels edges hist quantiles levels pad w a ol cs h lv : 0 <= a <= 1 -> prep_hist edges hist pad = Ok (cs, h) -> contour_levels h quantiles levels = Ok lv ->
  let d := draw_contour2d edges hist quantiles levels pad (LwNum w) (Some a) ol in
  (~ at_least_2x2 h -> d = ([], Err TypeError))
  /\ (at_least_2x2 h -> (exists v, In v lv /\ strictly_inside h v) -> ~ incr_list lv -> d = ([], Err ValueError))
  /\ forall dl, (at_least_2x2 h -> (exists v, In v lv /\ strictly_inside h v) -> incr_list lv -> dl = lv -> exists lines, map ln_level lines = dl /\ fst d = [ALines cs h lines]
        /\ (plain_outline ol -> snd d = Ok (cs, h, lines)) /\ (~ plain_outline ol -> snd d = Err ValueError))
     /\ (at_least_2x2 h -> (forall v, In v lv -> ~ strictly_inside h v) -> forall v, least_entry h v -> dl = [v] -> exists lines, map ln_level lines = dl /\ fst d = [ALines cs h lines]
        /\ (plain_outline ol -> snd d = Ok (cs, h, lines)) /\ (~ plain_outline ol -> snd d = Err ValueError)).
Proof.
  intros Ha H1 H2 d. unfold d, draw_contour2d. rewrite dres_bind, H1. cbn [snd fst]. rewrite dres_bind, H2, dres_bind.
  rewrite (proj2 (Rleb_true 0 a)), (proj2 (Rleb_true a 1)) by lra. cbn [andb]. cbv zeta.
  assert (HR : forall dl, exists lines, map ln_level lines = dl /\
     let r := match ol with
       | OlTrue => match outline_effects (LwNum w) (Some a) (length dl) with
                   | Ok effs => _ <~ put (ALines cs h (mk_lines (LwNum w) dl (nth_error effs))) ;; dret (cs, h, mk_lines (LwNum w) dl (nth_error effs))
                   | Err e => _ <~ put (ALines cs h (mk_lines (LwNum w) dl (fun _ => None))) ;; dres (Err e)
                   end
       | OlFalse => _ <~ put (ALines cs h (mk_lines (LwNum w) dl (fun _ => None))) ;; dret (cs, h, mk_lines (LwNum w) dl (fun _ => None))
       | OlOther _ => _ <~ put (ALines cs h (mk_lines (LwNum w) dl (fun _ => None))) ;; dres (Err ValueError)
       end in fst r = [ALines cs h lines] /\ (plain_outline ol -> snd r = Ok (cs, h, lines)) /\ (~ plain_outline ol -> snd r = Err ValueError)).
  { intros dl. destruct ol; cbn [outline_effects]; eexists; (split; [apply mk_lines_levels|]); cbv zeta; (split; [reflexivity|]); split; try reflexivity; unfold plain_outline.
    - intros N. contradiction N. left. reflexivity.
    - intros N. contradiction N. right. reflexivity.
    - intros [Q|Q]; discriminate Q. }
  destruct (mpl_levels_cases h lv) as [[N E]|[(B & Hno & v & Hv & E)|[(B & Hin & HI & E)|(B & Hin & HI & E)]]]; rewrite E; rewrite ?dres_bind.
  - split; [reflexivity|]. split; [intros B; contradiction (N B)|]. intros dl. split; intros B; contradiction (N B).
  - split; [intros N; contradiction (N B)|]. split; [intros _ (u & Hu & Q); contradiction (Hno u Hu Q)|]. intros dl. split; [intros _ (u & Hu & Q); contradiction (Hno u Hu Q)|].
    intros _ _ v' Hv' ->. replace v' with v; [destruct (HR [v]) as (lines & HL & Q); exists lines; split; [exact HL|exact Q]|]. destruct Hv as [V1 V2], Hv' as [W1 W2]. pose proof (V2 v' W1). pose proof (W2 v V1). lra.
  - split; [intros N; contradiction (N B)|]. split; [intros _ _ N; contradiction (N HI)|]. intros dl. split; [intros _ _ _ ->; destruct (HR lv) as (lines & HL & Q); exists lines; split; [exact HL|exact Q]|].
    intros _ Hno. destruct Hin as (u & Hu & Q). contradiction (Hno u Hu Q).
  - split; [intros N; contradiction (N B)|]. split; [reflexivity|]. intros dl. split; [intros _ _ N; contradiction (HI N)|]. intros _ Hno. destruct Hin as (u & Hu & Q). contradiction (Hno u Hu Q).
Qed.
(** A fraction smaller than the share of the highest entry. *)
Lemma small_level h q v m : (forall u, entry h u -> 0 <= u) -> level_for h q v -> greatest_entry h m -> q * total_of h < m -> v = m.
Proof.
  intros Hn (E & M & _) [Hm HG] Hq. destruct M as [M|M]; [pose proof (M m Hm); pose proof (HG v E); lra|].
  destruct (Req_dec v m) as [Q|Q]; [exact Q|]. exfalso. pose proof (HG v E). assert (m <= above h v); [|pose proof (Hn v E); lra].
  destruct Hm as (idx & Hi & Em). unfold above. rewrite asum_list. rewrite <- Em.
  apply Rle_trans with ((fun i => if Rltb v (at_ h i) then at_ h i else 0) idx).
  - cbv beta. rewrite (proj2 (Rltb_true _ _)) by lra. lra.
  - apply inb_all_idx in Hi. revert Hi. assert (Hall : forall i, In i (all_idx (shp h)) -> 0 <= at_ h i) by (intros i Hi'; apply Hn; exists i; split; [apply inb_all_idx, Hi'|reflexivity]).
    induction (all_idx (shp h)) as [|j l IH]; [intros []|]. 
    assert (0 <= sumf (fun i => if Rltb v (at_ h i) then at_ h i else 0) l) as P.
    { clear IH. assert (Hl : forall i, In i l -> 0 <= at_ h i) by (intros i Hi'; apply Hall; right; exact Hi'). clear Hall. induction l as [|k l IHl]; [cbn; lra|]. rewrite sumf_cons.
      pose proof (Hl k (or_introl eq_refl)). pose proof (IHl (fun i Hi' => Hl i (or_intror Hi'))). destruct (Rltb v (at_ h k)); lra. }
    rewrite sumf_cons. intros [->|Hi]; [cbv beta in *; lra|].
    pose proof (IH (fun i Hi' => Hall i (or_intror Hi')) Hi). cbv beta in *. pose proof (Hall j (or_introl eq_refl)). destruct (Rltb v (at_ h j)); lra.
Qed.
Lemma dfm_list h qs lv : (forall u, entry h u -> 0 <= u) -> 0 < total_of h -> contour_levels h (Some qs) None = Ok lv ->
  exists ls, Forall2 (level_for h) qs ls /\ Permutation ls lv.
Proof.
  intros Hn HT H. destruct (dfm_levels_spec h (Some qs) None Hn HT) as (sg & levels & qs' & ls & E & Eq & HF & HP & _). cbn [contour_levels] in H. rewrite E in H. cbn [bind fst snd] in H. injection H as <-.
  cbn [default_quantiles] in Eq. injection Eq as -> _. exists ls. auto.
Qed.
(** Small fractions only: one line, at the lowest entry. *)
Lemma contour2d_small edges hist qs pad w a ol cs h m v : 0 <= a <= 1 -> prep_hist edges hist pad = Ok (cs, h) -> at_least_2x2 h -> (forall u, entry h u -> 0 <= u) -> 0 < total_of h ->
  greatest_entry h m -> least_entry h v -> (forall q, In q qs -> q * total_of h < m) -> plain_outline ol ->
  exists l, draw_contour2d edges hist (Some qs) None pad (LwNum w) (Some a) ol = ([ALines cs h [l]], Ok (cs, h, [l])) /\ ln_level l = v.
Proof.
  intros Ha HP HB Hn HT Hm Hv Hq Ho.
  assert (exists lv, contour_levels h (Some qs) None = Ok lv) as [lv HL].
  { destruct (dfm_levels_spec h (Some qs) None Hn HT) as (sg & levels & qs' & ls & E & _). exists levels. cbn [contour_levels]. rewrite E. reflexivity. }
  destruct (dfm_list h qs lv Hn HT HL) as (ls & HF & HPm).
  assert (Hno : forall u, In u lv -> ~ strictly_inside h u).
  { intros u Hu [_ (x & Hx & Lx)]. apply (Permutation_in _ (Permutation_sym HPm)) in Hu. assert (exists q, In q qs /\ level_for h q u) as (q & Hq' & Hlf).
    { clear -HF Hu. induction HF as [|q0 v0 qs0 ls0 H0 HF0 IH]; [destruct Hu|]. destruct Hu as [->|Hu]; [exists q0; split; [left; reflexivity|exact H0]|]. destruct (IH Hu) as (q & A & B). exists q. split; [right; exact A|exact B]. }
    rewrite (small_level h q u m Hn Hlf Hm (Hq q Hq')) in Lx. pose proof (proj2 Hm x Hx). lra. }
  destruct (contour2d_levels edges hist (Some qs) None pad w a ol cs h lv Ha HP HL) as (_ & _ & H). destruct (H [v]) as [_ H']. destruct (H' HB Hno v Hv eq_refl) as (lines & E1 & E2 & E3 & _).
  destruct lines as [|l [|]]; try discriminate E1. injection E1 as E1. exists l. split; [|exact E1]. rewrite (surjective_pairing (draw_contour2d _ _ _ _ _ _ _ _)), E2, (E3 Ho). reflexivity.
Qed.
(** Two fractions with one level. *)
Lemma incr_nodup l : incr_list l -> NoDup l.
Proof.
  intros H. apply (NoDup_nth l 0). intros i j Hi Hj E. destruct (Nat.lt_trichotomy i j) as [Q|[Q|Q]]; [|exact Q|].
  - pose proof (H i j Q Hj). lra.
  - pose proof (H j i Q Hi). lra.
Qed.
Lemma contour2d_same edges hist qs pad w a ol cs h i j u x qx : 0 <= a <= 1 -> prep_hist edges hist pad = Ok (cs, h) -> at_least_2x2 h -> (forall u, entry h u -> 0 <= u) -> 0 < total_of h ->
  (i < j)%nat -> (j < length qs)%nat -> level_for h (nth i qs 0) u -> level_for h (nth j qs 0) u -> In qx qs -> level_for h qx x -> strictly_inside h x ->
  draw_contour2d edges hist (Some qs) None pad (LwNum w) (Some a) ol = ([], Err ValueError).
Proof.
  intros Ha HP HB Hn HT Hij Hj Hu1 Hu2 Hqx Hx Hin.
  assert (exists lv, contour_levels h (Some qs) None = Ok lv) as [lv HL].
  { destruct (dfm_levels_spec h (Some qs) None Hn HT) as (sg & levels & qs' & ls & E & _). exists levels. cbn [contour_levels]. rewrite E. reflexivity. }
  destruct (dfm_list h qs lv Hn HT HL) as (ls & HF & HPm).
  assert (HN : forall k, (k < length qs)%nat -> level_for h (nth k qs 0) (nth k ls 0)).
  { clear -HF. induction HF as [|q0 v0 qs0 ls0 H0 HF0 IH]; [cbn; lia|]. intros [|k] Hk; [exact H0|]. apply IH. cbn in Hk. lia. }
  assert (Ll : length ls = length qs) by (clear -HF; induction HF; cbn; congruence).
  destruct (contour2d_levels edges hist (Some qs) None pad w a ol cs h lv Ha HP HL) as (_ & H & _). apply (H HB).
  - apply In_nth with (d := 0) in Hqx. destruct Hqx as (k & Hk & <-). exists x. split; [|exact Hin]. rewrite (level_unique h _ _ _ Hx (HN k Hk)). apply (Permutation_in _ HPm), nth_In. lia.
  - intros HI. apply incr_nodup in HI. apply (Permutation_NoDup (Permutation_sym HPm)) in HI. rewrite (NoDup_nth ls 0) in HI.
    enough (i = j) by lia. apply HI; [lia|lia|]. rewrite <- (level_unique h _ _ _ Hu1 (HN i ltac:(lia))). apply (level_unique h _ _ _ Hu2 (HN j Hj)).
Qed.


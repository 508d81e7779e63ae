(** Proofs about the limits of corner plots (C58). *)
From Coq Require Import String ZArith.
From Verif Require Import Base ModelLinAlg ModelKernels ModelKDE ModelExtrema ModelUtils ModelGrid ModelCorner ModelOptions SpecUtils SpecCorner
  ProofExtrema ProofUtils ProofUtils2 ProofUtils3 ProofNested ProofGrid2.
Open Scope R_scope.
Notation length := List.length.

(* ------------------------------------------------------------ ranges *)
Lemma stretched_covers vals : vals <> [] -> exists a b, stretched vals = Ok (Some (Some a, Some b)) /\ covers vals (a, b) /\ a <= b.
Proof.
  intros Hne. destruct (minmax_plain vals Hne) as (m & M & _ & Hm & HM). destruct (minmax_stretch vals (1 / 10) m M Hm HM) as (a & b & E & S & D).
  assert (m <= M) by (destruct Hm as [_ H]; apply H; apply HM). exists a, b. split; [exact E|]. split; [|lra]. exists m, M. cbn [fst snd]. repeat split; try apply Hm; try apply HM; lra.
Qed.
Lemma stretched_inv vals a b : stretched vals = Ok (Some (Some a, Some b)) -> vals <> [].
Proof. intros E ->. discriminate E. Qed.
Lemma min_of_snoc l a x : min_of l a -> min_of (l ++ [x]) (Rmin x a).
Proof.
  intros [H1 H2]. split.
  - apply in_or_app. unfold Rmin. destruct (Rle_dec x a); [right; left; reflexivity|left; exact H1].
  - intros y Hy. apply in_app_or in Hy. destruct Hy as [Hy|[<-|[]]]; [|apply Rmin_l]. pose proof (Rmin_r x a). pose proof (H2 y Hy). lra.
Qed.
Lemma max_of_snoc l a x : max_of l a -> max_of (l ++ [x]) (Rmax x a).
Proof.
  intros [H1 H2]. split.
  - apply in_or_app. unfold Rmax. destruct (Rle_dec x a); [left; exact H1|right; left; reflexivity].
  - intros y Hy. apply in_app_or in Hy. destruct Hy as [Hy|[<-|[]]]; [|apply Rmax_l]. pose proof (Rmax_r x a). pose proof (H2 y Hy). lra.
Qed.
Lemma extend_union rs old lo hi : union_of rs old -> lo <= hi -> exists v, extend old (Some (Some lo, Some hi)) = Ok v /\ union_of (rs ++ [(lo, hi)]) v.
Proof.
  intros HU Hle. unfold extend. destruct rs as [|r0 rs].
  - cbn in HU. subst old. cbn [bind]. cbn. unfold Rmin, Rmax. destruct (Rle_dec lo hi); [|lra].
    eexists. split; [reflexivity|]. exists lo, hi. split; [reflexivity|]. split; (split; [left; reflexivity|intros x [<-|[]]; lra]).
  - destruct HU as (a & b & -> & Ha & Hb). cbn [bind]. cbn. eexists. split; [reflexivity|]. rewrite (Rmin_left lo hi), (Rmax_right lo hi) by lra.
    exists (Rmin lo a), (Rmax hi b). split; [reflexivity|]. cbn [map app]. rewrite !map_app.
    split; [exact (min_of_snoc _ _ lo Ha)|exact (max_of_snoc _ _ hi Hb)].
Qed.
Lemma union_none rs v : union_of rs v -> v = LvNone \/ exists a b, v = LvPair a b.
Proof. destruct rs; cbn; [auto|]. intros (a & b & -> & _). right. eauto. Qed.
Lemma extend_ok old new v : extend old new = Ok v -> exists lo hi, new = Some (Some lo, Some hi).
Proof. unfold extend. destruct old; cbn [bind]; try discriminate; destruct new as [[[lo|] [hi|]]|]; try discriminate; eauto. Qed.

(* ------------------------------------------------------------ panels *)
(** The state after any number of settings of the limits. *)
Definition inner (size : nat) (rotate : bool) (ps : panels) : Prop :=
  forall i j, (i < size)%nat -> (j < size)%nat -> p_vis (ps i j) = negb (Nat.ltb i j)
    /\ (i = j -> if andb rotate (Nat.eqb i (size - 1)) then p_x (ps i j) = (None, None) else p_y (ps i j) = (None, None)).
Definition full (v : limval) : Prop := match v with LvPair _ _ => True | _ => False end.
Lemma set_full v old : full v -> set_lim v old = shown v.
Proof. destruct v; cbn; try contradiction. reflexivity. Qed.
Lemma set_fresh v : set_lim v (None, None) = shown v.
Proof. destruct v; reflexivity. Qed.
Lemma set_extrema_plain size rotate ext ps : length ext = size -> exists ps', set_extrema size rotate ext ps = Ok ps'
  /\ forall i j, (i < size)%nat -> (j < size)%nat -> ps' i j =
        (let p := ps i j in if Nat.ltb i j then mkPanel false (p_x p) (p_y p)
        else if Nat.eqb i j then
          (if andb rotate (Nat.eqb j (size - 1)) then mkPanel (p_vis p) (p_x p) (set_lim (nth j ext LvNone) (p_y p))
           else mkPanel (p_vis p) (set_lim (nth j ext LvNone) (p_x p)) (p_y p))
        else mkPanel (p_vis p) (set_lim (nth j ext LvNone) (p_x p)) (set_lim (nth i ext LvNone) (p_y p))).
Proof.
  intros HL. unfold set_extrema. rewrite HL.
  replace (andb (Nat.eqb size 2) (negb (Nat.eqb size 2))) with false by (destruct (Nat.eqb size 2); reflexivity). cbn [bind]. rewrite HL, Nat.eqb_refl. cbn [negb].
  eexists. split; [reflexivity|]. intros i j Hi Hj. cbv beta. rewrite (proj2 (Nat.ltb_lt i size) Hi), (proj2 (Nat.ltb_lt j size) Hj). reflexivity.
Qed.
Lemma inner_fresh size rotate : inner size rotate (fresh_panels size).
Proof. intros i j Hi Hj. split; [reflexivity|]. intros _. destruct (andb _ _); reflexivity. Qed.
Lemma set_aligned size rotate ext ps ps' : length ext = size -> inner size rotate ps -> (forall i, (i < size)%nat -> full (nth i ext LvNone)) ->
  set_extrema size rotate ext ps = Ok ps' -> aligned size rotate (fun i => nth i ext LvNone) ps' /\ inner size rotate ps'.
Proof.
  intros HL HI HF E. destruct (set_extrema_plain size rotate ext ps HL) as (ps1 & E1 & H). rewrite E in E1. injection E1 as <-.
  split; intros i j Hi Hj; destruct (HI i j Hi Hj) as [V D]; rewrite (H i j Hi Hj); cbv zeta; destruct (Nat.ltb_spec i j) as [L|L].
  - cbn. split; [reflexivity|]. split; intros; lia.
  - destruct (Nat.eqb_spec i j) as [<-|N].
    + rewrite (set_full _ _ (HF i Hi)), (set_full _ _ (HF i Hi)). specialize (D eq_refl). destruct (andb rotate (Nat.eqb i (size - 1))); cbn [p_vis p_x p_y]; (split; [rewrite V; destruct (Nat.ltb_spec i i); [lia|reflexivity]|]); (split; [intros; lia|]); intros _; auto.
    + rewrite (set_full _ _ (HF i Hi)), (set_full _ _ (HF j Hj)). cbn [p_vis p_x p_y]. split; [rewrite V; destruct (Nat.ltb_spec i j); [lia|reflexivity]|]. split; [auto|intros; lia].
  - cbn. split; [reflexivity|intros; lia].
  - destruct (Nat.eqb_spec i j) as [<-|N].
    + specialize (D eq_refl). destruct (andb rotate (Nat.eqb i (size - 1))); cbn [p_vis p_x p_y]; (split; [rewrite V; destruct (Nat.ltb_spec i i); [lia|reflexivity]|]); intros _; exact D.
    + cbn [p_vis p_x p_y]. split; [rewrite V; destruct (Nat.ltb_spec i j); [lia|reflexivity]|intros; lia].
Qed.

(* ------------------------------------------------------------ one call *)
Definition state_ok (user : option (list (R * R))) (size : nat) (rotate : bool) (rss : list (list (R * R))) (c : corner) : Prop :=
  co_size c = size /\ co_rotate c = rotate /\ co_flag c = negb (user_given user) /\ length (co_limits c) = size
  /\ (forall i, (i < size)%nat -> union_of (user_range user i ++ map (fun rs => nth i rs (0, 0)) rss) (nth i (co_limits c) LvNone))
  /\ inner size rotate (co_panels c)
  /\ (user_given user = true \/ rss <> [] -> aligned size rotate (fun i => nth i (co_limits c) LvNone) (co_panels c)).

Lemma init_ok user size rotate c : match user with None => True | Some l => length l = size end -> corner_init size rotate (user_pairs user) = Ok c -> state_ok user size rotate [] c.
Proof.
  unfold corner_init. destruct user as [l|]; cbn [user_pairs].
  - intros HL E. destruct (set_extrema size rotate _ _) as [ps|] eqn:ES; [|discriminate E]. cbn [bind] in E. injection E as <-.
    assert (HL' : length (map (fun p : R * R => LvPair (fst p) (snd p)) l) = size) by (rewrite map_length; exact HL).
    assert (N : forall i, (i < size)%nat -> nth i (map (fun p : R * R => LvPair (fst p) (snd p)) l) LvNone = LvPair (fst (nth i l (0, 0))) (snd (nth i l (0, 0)))).
    { intros i Hi. rewrite (nth_indep _ _ (LvPair (fst (0, 0)) (snd (0, 0)))) by lia. apply (map_nth (fun p : R * R => LvPair (fst p) (snd p))). }
    destruct (set_aligned size rotate _ _ ps HL' (inner_fresh size rotate) ltac:(intros i Hi; rewrite N by exact Hi; exact Logic.I) ES) as [A I].
    split; [reflexivity|]. split; [reflexivity|]. split; [reflexivity|]. split; [exact HL'|]. split; [|split; [exact I|intros _; exact A]].
    intros i Hi. cbn [co_limits user_range map]. rewrite N by exact Hi. cbn [app map]. do 2 eexists. split; [reflexivity|]. split; (split; [left; reflexivity|intros x [<-|[]]; apply Rle_refl]).
  - intros _ E. injection E as <-. split; [reflexivity|]. split; [reflexivity|]. split; [reflexivity|]. split; [apply repeat_length|]. split; [|split; [apply inner_fresh|]].
    + intros i Hi. cbn. apply nth_repeat.
    + intros [H|H]; [discriminate H|contradiction (H eq_refl)].
Qed.

Lemma Forall2_nth {A B} (P : A -> B -> Prop) l l' da db i : Forall2 P l l' -> (i < length l)%nat -> P (nth i l da) (nth i l' db).
Proof. intros H. revert i. induction H as [|a b l l' Hab H IH]; intros i Hi; [cbn in Hi; lia|]. destruct i; [exact Hab|]. apply IH. cbn in Hi. lia. Qed.
Lemma Forall2_length_eq {A B} (P : A -> B -> Prop) l l' : Forall2 P l l' -> length l = length l'.
Proof. induction 1; cbn; congruence. Qed.
Lemma Forall2_of_nth {A B} (P : A -> B -> Prop) l l' da db : length l = length l' -> (forall i, (i < length l)%nat -> P (nth i l da) (nth i l' db)) -> Forall2 P l l'.
Proof.
  revert l'. induction l as [|a l IH]; intros [|b l'] HL H; try discriminate HL; [constructor|]. constructor; [exact (H 0%nat ltac:(cbn; lia))|].
  apply IH; [injection HL; auto|]. intros i Hi. apply (H (S i)). cbn. lia.
Qed.

Lemma mapM_limits (ls : list limval) (rs : list (option opair)) l : (forall i, In i l -> (i < length ls)%nat) ->
  mapM (fun ii => match nth_error ls ii with None => Err IndexError | Some old => extend old (nth ii rs None) end) l = mapM (fun ii => extend (nth ii ls LvNone) (nth ii rs None)) l.
Proof.
  induction l as [|a l IH]; intros H; [reflexivity|]. cbn [mapM]. rewrite (nth_error_nth' ls LvNone) by (apply H; left; reflexivity). rewrite IH by (intros i Hi; apply H; right; exact Hi). reflexivity.
Qed.
Lemma step_ok user size rotate rss c vals limit c' : state_ok user size rotate rss c -> plot_limits c vals limit = Ok c' ->
  length vals = size
  /\ if (match limit with Some b => b | None => negb (user_given user) end)
     then exists rs, length rs = size /\ Forall2 covers vals rs /\ state_ok user size rotate (rss ++ [rs]) c'
     else c' = c.
Proof.
  intros (S1 & S2 & S3 & S4 & S5 & S6 & S7) E. unfold plot_limits in E. rewrite S1, S2, S3 in E.
  destruct (Nat.eqb_spec (length vals) size) as [HV|]; [|discriminate E]. split; [exact HV|]. cbn [negb] in E.
  destruct (mapM stretched vals) as [ss|] eqn:ESS; [|discriminate E]. cbn [bind] in E. rewrite mapM_limits in E by (intros i Hi; apply in_seq in Hi; lia).
  replace (match limit with Some b => b | None => negb (user_given user) end) with (match limit with None => negb (user_given user) | Some b => b end) by reflexivity.
  destruct (match limit with None => negb (user_given user) | Some b => b end); [|injection E as <-; reflexivity].
  destruct (mapM (fun ii => extend (nth ii (co_limits c) LvNone) (nth ii ss None)) (seq 0 size)) as [ls|] eqn:EL; [|discriminate E]. cbn [bind] in E.
  apply mapM_Ok_Forall2 in EL. apply mapM_Ok_Forall2 in ESS.
  assert (LL : length ls = size) by (rewrite <- (Forall2_length_eq _ _ _ EL), seq_length; reflexivity).
  assert (LS : length ss = size) by (rewrite <- (Forall2_length_eq _ _ _ ESS); exact HV).
  assert (SK : skipn size (co_limits c) = []) by (apply skipn_all2; lia). rewrite SK, app_nil_r in E.
  destruct (set_extrema size rotate ls (co_panels c)) as [ps|] eqn:EP; [|discriminate E]. cbn [bind] in E. injection E as <-.
  set (pr := fun o : option (option R * option R) => match o with Some (Some a, Some b) => (a, b) | _ => (0, 0) end).
  set (rs := map pr ss). assert (LR : length rs = size) by (unfold rs; rewrite map_length; exact LS).
  assert (K : forall i, (i < size)%nat -> covers (nth i vals []) (nth i rs (0, 0)) /\ union_of (user_range user i ++ map (fun r => nth i r (0, 0)) (rss ++ [rs])) (nth i ls LvNone)).
  { intros i Hi. pose proof (Forall2_nth _ _ _ 0%nat LvNone i EL ltac:(rewrite seq_length; exact Hi)) as X. cbv beta in X. rewrite seq_nth in X by exact Hi. cbn [Nat.add] in X.
    destruct (extend_ok _ _ _ X) as (lo & hi & Ei). rewrite Ei in X.
    pose proof (Forall2_nth _ _ _ [] None i ESS ltac:(lia)) as Y. cbv beta in Y. rewrite Ei in Y.
    destruct (stretched_covers _ (stretched_inv _ _ _ Y)) as (a & b & Y' & C & Hle). rewrite Y in Y'. injection Y' as <- <-.
    assert (N : nth i rs (0, 0) = (lo, hi)). { transitivity (pr (nth i ss None)); [exact (map_nth pr ss None i)|]. rewrite Ei. reflexivity. }
    rewrite N. split; [exact C|]. rewrite map_app. cbn [map]. rewrite N, app_assoc. destruct (extend_union _ _ lo hi (S5 i Hi) Hle) as (v & Ev & Hv). rewrite X in Ev. injection Ev as <-. exact Hv. }
  exists rs. split; [exact LR|]. split.
  - apply (Forall2_of_nth _ _ _ [] (0, 0)); [lia|]. intros i Hi. apply K. lia.
  - assert (F : forall i, (i < size)%nat -> full (nth i ls LvNone)).
    { intros i Hi. destruct (K i Hi) as [_ U]. rewrite map_app, app_assoc in U. cbn [map] in U. unfold union_of in U. destruct ((user_range user i ++ map (fun r => nth i r (0, 0)) rss) ++ [nth i rs (0, 0)]) as [|z zs] eqn:Z; [destruct (user_range user i ++ map (fun r => nth i r (0, 0)) rss); discriminate Z|]. destruct U as (a & b & -> & _). exact I. }
    destruct (set_aligned size rotate ls _ ps LL S6 F EP) as [A IN].
    split; [reflexivity|]. split; [reflexivity|]. split; [reflexivity|]. split; [exact LL|]. split; [intros i Hi; apply K, Hi|]. split; [exact IN|intros _; exact A].
Qed.

(* ------------------------------------------------------------ histories *)
Lemma plots_snoc sorter c ks k : corner_plots sorter c (ks ++ [k]) = (do c1 <- corner_plots sorter c ks ;; corner_plot sorter c1 k).
Proof. unfold corner_plots. rewrite fold_left_app. reflexivity. Qed.
Lemma filter_snoc {A} (f : A -> bool) l x : filter f (l ++ [x]) = filter f l ++ (if f x then [x] else []).
Proof. induction l as [|a l IH]; cbn; [destruct (f x); reflexivity|]. destruct (f a); cbn; rewrite IH; reflexivity. Qed.
Lemma plots_ok sorter user size rotate c0 ks c : state_ok user size rotate [] c0 -> corner_plots sorter c0 ks = Ok c ->
  exists rss, contributed sorter size (filter (effective (user_given user)) ks) rss /\ state_ok user size rotate rss c
    /\ (filter (effective (user_given user)) ks = [] -> c = c0).
Proof.
  intros H0. revert c. induction ks as [|k ks IH] using rev_ind; intros c E.
  - injection E as <-. exists []. split; [constructor|]. auto.
  - rewrite plots_snoc in E. destruct (corner_plots sorter c0 ks) as [c1|] eqn:E1; [|discriminate E]. cbn [bind] in E. destruct (IH c1 eq_refl) as (rss & HC & HS & HN).
    unfold corner_plot in E. destruct (negb (Nat.eqb (length (pc_data k)) (co_size c1))); [discriminate E|]. destruct (call_values sorter k) as [vals|] eqn:EV; [|discriminate E]. cbn [bind] in E.
    destruct (step_ok _ _ _ _ _ _ _ _ HS E) as (HV & HR). rewrite filter_snoc. unfold effective at 2 4. destruct (match pc_limit k with Some b => b | None => negb (user_given user) end).
    + destruct HR as (rs & Lr & Cr & S'). exists (rss ++ [rs]). split; [|split; [exact S'|intros Z; destruct (filter _ ks); discriminate Z]].
      apply Forall2_app; [exact HC|]. constructor; [|constructor]. exists vals. auto.
    + subst c1. exists rss. rewrite app_nil_r. auto.
Qed.

(** The stored limits are the union of what was given and the ranges plotted. *)
Theorem limits_union sorter user size rotate c0 ks c : match user with None => True | Some l => length l = size end ->
  corner_init size rotate (user_pairs user) = Ok c0 -> corner_plots sorter c0 ks = Ok c ->
  exists rss, contributed sorter size (filter (effective (user_given user)) ks) rss
    /\ length (co_limits c) = size
    /\ forall i, (i < size)%nat -> union_of (user_range user i ++ map (fun rs => nth i rs (0, 0)) rss) (nth i (co_limits c) LvNone).
Proof.
  intros HU E0 E. destruct (plots_ok sorter user size rotate c0 ks c (init_ok _ _ _ _ HU E0) E) as (rss & HC & HS & _). exists rss. split; [exact HC|]. split; apply HS.
Qed.
(** Without a call changing them nothing happens to the limits and panels. *)
Theorem limits_kept sorter user size rotate c0 ks c : match user with None => True | Some l => length l = size end ->
  corner_init size rotate (user_pairs user) = Ok c0 -> corner_plots sorter c0 ks = Ok c -> (forall k, In k ks -> effective (user_given user) k = false) -> c = c0.
Proof.
  intros HU E0 E HN. destruct (plots_ok sorter user size rotate c0 ks c (init_ok _ _ _ _ HU E0) E) as (rss & _ & _ & H). apply H.
  clear -HN. induction ks as [|k ks IH]; [reflexivity|]. cbn. rewrite (HN k (or_introl eq_refl)). apply IH. intros x Hx. apply HN. right. exact Hx.
Qed.
(** The panels show the stored limits. *)
Theorem limits_shown sorter user size rotate c0 ks c : match user with None => True | Some l => length l = size end ->
  corner_init size rotate (user_pairs user) = Ok c0 -> corner_plots sorter c0 ks = Ok c -> (user_given user = true \/ exists k, In k ks /\ effective false k = true) ->
  aligned size rotate (fun i => nth i (co_limits c) LvNone) (co_panels c).
Proof.
  intros HU E0 E HX. destruct (plots_ok sorter user size rotate c0 ks c (init_ok _ _ _ _ HU E0) E) as (rss & HC & HS & _). apply HS.
  destruct (user_given user); [left; reflexivity|right]. destruct HX as [HX|(k & Hk & He)]; [discriminate HX|]. intros ->.
  inversion HC as [Z|]; subst. assert (X : In k (filter (effective false) ks)) by (apply filter_In; auto). rewrite <- Z in X. destruct X.
Qed.

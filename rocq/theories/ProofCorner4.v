(** Corner plots: legend, one pair of limits, origin, weights. *)
From Coq Require Import String Ascii ZArith Lia.
From Verif Require Import Base ModelLinAlg ModelKernels ModelKDE ModelExtrema ModelUtils ModelGrid ModelApi ModelCorner ModelOptions SpecUtils SpecCorner ProofNested ProofCorner ProofCorner3.
Open Scope R_scope.
Notation length := List.length.

(* ------------------------------------------------------------ legend *)
Lemma legend_default_auto size : (1 <= size)%nat -> exists r c loc, legend (B := R) size None None None = Ok (Some loc, Some (r, c)) /\ (r < size)%nat /\ (c < size)%nat /\ ((2 <= size)%nat -> (r < c)%nat).
Proof.
  intros H. unfold legend, legend_default.
  destruct (Nat.eqb_spec size 2) as [->|N2]; [exists 0%nat, 1%nat; eexists; cbn; repeat split; lia|].
  destruct (Nat.eqb_spec size 3) as [->|N3]; [exists 0%nat, 2%nat; eexists; cbn; repeat split; lia|].
  destruct (Nat.eqb_spec size 4) as [->|N4]; [exists 0%nat, 3%nat; eexists; cbn; repeat split; lia|].
  destruct (Nat.eqb_spec size 1) as [->|N1]; [exists 0%nat, 0%nat; eexists; cbn; repeat split; lia|].
  cbn [orb fst snd]. assert (H5 : (5 <= size)%nat) by lia. pose proof (Nat.div_mod size 2 ltac:(lia)) as DM. pose proof (Nat.mod_upper_bound size 2 ltac:(lia)) as MB.
  set (q := (size / 2)%nat) in *.
  assert (P : forall z, (0 <= z < Z.of_nat size)%Z -> py_index size z = Ok (Z.to_nat z)).
  { intros z Hz. unfold py_index. destruct (Z.leb_spec 0 z); [|lia]. destruct (Z.ltb_spec z (Z.of_nat size)); [|lia]. reflexivity. }
  destruct (Nat.even size) eqn:EV; cbn [fst snd].
  - rewrite !P by lia. cbn [bind]. exists 1%nat, q. eexists. rewrite Nat2Z.id. repeat split; lia.
  - rewrite !P by lia. cbn [bind]. do 3 eexists. split; [reflexivity|]. repeat split; lia.
Qed.
(** The location given is ignored when neither panel nor box is given. *)
Lemma legend_loc (B : Type) size loc : legend (B := B) size None loc None = legend (B := B) size None None None.
Proof. reflexivity. Qed.
Theorem legend_auto (B : Type) size loc : (1 <= size)%nat -> exists r c loc', legend (B := B) size None loc None = Ok (Some loc', Some (r, c)) /\ (r < size)%nat /\ (c < size)%nat /\ ((2 <= size)%nat -> (r < c)%nat).
Proof. intros H. destruct (legend_default_auto size H) as (r & c & l & E & X). exists r, c, l. split; [exact E|exact X]. Qed.
(** The box given does not reach the figure. *)
Theorem legend_box (B : Type) size index loc (b : B) : legend size index loc (Some b) = Ok (loc, None).
Proof. reflexivity. Qed.
Theorem legend_panel (B : Type) size r c loc : (r < size)%nat -> (c < size)%nat -> legend (B := B) size (Some (Z.of_nat r, Z.of_nat c)) loc None = Ok (loc, Some (r, c)).
Proof.
  intros Hr Hc. unfold legend, py_index. cbn [fst snd].
  destruct (Z.leb_spec 0 (Z.of_nat r)); [|lia]. destruct (Z.ltb_spec (Z.of_nat r) (Z.of_nat size)); [|lia]. destruct (Z.leb_spec 0 (Z.of_nat c)); [|lia]. destruct (Z.ltb_spec (Z.of_nat c) (Z.of_nat size)); [|lia].
  cbn [andb bind]. rewrite !Nat2Z.id. reflexivity.
Qed.
Theorem legend_outside (B : Type) size i j loc : (i < - Z.of_nat size \/ Z.of_nat size <= i \/ j < - Z.of_nat size \/ Z.of_nat size <= j)%Z ->
  legend (B := B) size (Some (i, j)) loc None = Err IndexError.
Proof.
  assert (F : forall z, (z < - Z.of_nat size \/ Z.of_nat size <= z)%Z -> py_index size z = Err IndexError).
  { intros z Hz. unfold py_index. destruct (Z.leb_spec 0 z), (Z.ltb_spec z (Z.of_nat size)), (Z.ltb_spec z 0), (Z.leb_spec (- Z.of_nat size) z); cbn [andb]; try reflexivity; lia. }
  assert (G : forall z, (exists k, py_index size z = Ok k) \/ py_index size z = Err IndexError).
  { intros z. unfold py_index. destruct (andb _ _); [eauto|]. destruct (andb _ _); eauto. }
  intros H. unfold legend. cbn [fst snd]. destruct (G i) as [(k & E)|E]; rewrite E; [|reflexivity]. cbn [bind].
  rewrite (F j); [reflexivity|]. destruct H as [H|[H|H]]; [rewrite F in E by auto; discriminate E|rewrite F in E by auto; discriminate E|exact H].
Qed.

(* ------------------------------------------------------------ one pair of limits *)
Lemma nth_repeat_lt (A : Type) (v d : A) n i : (i < n)%nat -> nth i (repeat v n) d = v.
Proof. revert i; induction n as [|n IH]; intros [|i] H; cbn; try lia; [reflexivity|apply IH; lia]. Qed.
Theorem one_pair size rotate a b : size <> 2%nat -> exists c, corner_init size rotate (Some [LvNum a; LvNum b]) = Ok c /\ aligned size rotate (fun _ => LvPair a b) (co_panels c).
Proof.
  intros H. unfold corner_init, set_extrema. cbn [length Nat.eqb]. destruct (Nat.eqb_spec size 2); [contradiction|]. cbn [negb andb as_pair bind]. rewrite repeat_length, Nat.eqb_refl. cbn [negb bind].
  eexists. split; [reflexivity|]. cbn [co_panels]. intros i j Hi Hj. unfold fresh_panels, is_last. apply Nat.ltb_lt in Hi as Bi. apply Nat.ltb_lt in Hj as Bj. rewrite Bi, Bj. cbn [andb negb].
  rewrite !nth_repeat_lt by assumption. cbn [set_lim shown]. destruct (Nat.ltb_spec i j) as [L|L]; cbn [p_vis p_x p_y negb].
  - split; [reflexivity|]. split; [lia|]. intros ->. lia.
  - destruct (Nat.eqb_spec i j) as [->|N].
    + destruct (andb rotate (Nat.eqb j (size - 1))); cbn [p_vis p_x p_y]; (split; [reflexivity|]); (split; [lia|]); auto.
    + cbn [p_vis p_x p_y]. split; [reflexivity|]. split; [auto|]. intros ->. contradiction.
Qed.
(** For two parameters the same pair sets only lower ends, a for the first, b for the second parameter. *)
Theorem one_pair_two rotate a b : exists c, corner_init 2 rotate (Some [LvNum a; LvNum b]) = Ok c
  /\ p_x (co_panels c 0%nat 0%nat) = (Some a, None) /\ p_x (co_panels c 1%nat 0%nat) = (Some a, None) /\ p_y (co_panels c 1%nat 0%nat) = (Some b, None).
Proof. unfold corner_init, set_extrema. cbn [length Nat.eqb negb andb bind]. eexists. split; [reflexivity|]. destruct rotate; repeat split. Qed.
(** Later plots that are to extend these limits fail. *)
Theorem one_pair_extend size rotate a b c vals : (1 <= size)%nat -> corner_init size rotate (Some [LvNum a; LvNum b]) = Ok c ->
  length vals = size -> (forall v, In v vals -> v <> []) -> plot_limits c vals (Some true) = Err TypeError.
Proof.
  intros H1 E HV HN. unfold corner_init in E. destruct (set_extrema _ _ _ _) as [ps|]; [|discriminate E]. cbn [bind] in E. injection E as <-.
  unfold plot_limits. cbn [co_size co_limits]. rewrite HV, Nat.eqb_refl. cbn [negb].
  destruct (mapM_ok_all stretched vals) as (ss & ->). { intros v Hv. destruct (stretched_covers v (HN v Hv)) as (x & y & E & _). eauto. }
  cbn [bind]. destruct size as [|n]; [lia|]. cbn [seq mapM nth_error extend bind]. reflexivity.
Qed.
Theorem wrong_number size rotate l : length l <> size -> length l <> 2%nat -> corner_init size rotate (Some l) = Err ValueError.
Proof.
  intros H1 H2. unfold corner_init, set_extrema. destruct (Nat.eqb_spec (length l) 2); [contradiction|]. cbn [andb bind]. destruct (Nat.eqb_spec (length l) size); [contradiction|]. reflexivity.
Qed.

(* ------------------------------------------------------------ origin *)
Lemma lower_letter a d : In (d, (ascii_of_nat (nat_of_ascii d - 32))) [("t", "T"); ("b", "B"); ("l", "L"); ("r", "R")]%char -> lower_c a = d <-> a = d \/ a = ascii_of_nat (nat_of_ascii d - 32).
Proof.
  intros H. destruct H as [H|[H|[H|[H|[]]]]]; injection H as <-; (split; [|intros [-> | ->]; reflexivity]);
  destruct a as [[] [] [] [] [] [] [] []]; vm_compute; intros E; try discriminate E; auto.
Qed.
Lemma eqb_letter a d u : In (d, u) [("t", "T"); ("b", "B"); ("l", "L"); ("r", "R")]%char -> (Ascii.eqb (lower_c a) d = true <-> a = d \/ a = u).
Proof.
  intros H. rewrite Ascii.eqb_eq. rewrite (lower_letter a d).
  - destruct H as [H|[H|[H|[H|[]]]]]; injection H as <- <-; reflexivity.
  - destruct H as [H|[H|[H|[H|[]]]]]; injection H as <- <-; cbn; auto.
Qed.
Theorem origin_accepts s o : parse_origin s = Ok o <->
  exists a b, s = String a (String b EmptyString) /\ (if fst o then a = "t" \/ a = "T" else a = "b" \/ a = "B")%char /\ (if snd o then b = "r" \/ b = "R" else b = "l" \/ b = "L")%char.
Proof.
  split.
  - unfold parse_origin. destruct s as [|a [|b [|c s]]]; cbn [list_ascii_of_string]; try discriminate. intros E. exists a, b. split; [reflexivity|].
    destruct (Ascii.eqb (lower_c a) "t") eqn:A; [|destruct (Ascii.eqb (lower_c a) "b") eqn:A'; [|discriminate E]]; cbn [bind] in E;
    (destruct (Ascii.eqb (lower_c b) "r") eqn:B; [|destruct (Ascii.eqb (lower_c b) "l") eqn:B'; [|discriminate E]]); cbn [bind] in E; injection E as <-; cbn [fst snd];
    split; (eapply eqb_letter; [|eassumption]); cbn; auto.
  - intros (a & b & -> & Ha & Hb). destruct o as [[] []]; cbn [fst snd] in Ha, Hb; destruct Ha as [-> | ->]; destruct Hb as [-> | ->]; reflexivity.
Qed.
Theorem origin_refused s : (exists o, parse_origin s = Ok o) \/ parse_origin s = Err ValueError.
Proof.
  unfold parse_origin. destruct (list_ascii_of_string s) as [|a [|b [|c l]]]; auto.
  destruct (Ascii.eqb (lower_c a) "t"); [|destruct (Ascii.eqb (lower_c a) "b"); [|auto]]; cbn [bind]; (destruct (Ascii.eqb (lower_c b) "r"); [|destruct (Ascii.eqb (lower_c b) "l"); [|auto]]); cbn [bind]; eauto.
Qed.
(** The visible panels are those in the corner of the figure chosen. *)
Theorem origin_places size rotate limits c o i j : corner_init size rotate (user_pairs limits) = Ok c -> match limits with None => True | Some l => length l = size end -> (i < size)%nat -> (j < size)%nat ->
  (fst (screen size o i j) < size)%nat /\ (snd (screen size o i j) < size)%nat
  /\ (p_vis (co_panels c i j) = true <-> in_corner size o (fst (screen size o i j)) (snd (screen size o i j))).
Proof.
  intros E HL Hi Hj. unfold screen. destruct o as [v h]. cbn [fst snd].
  assert (V : p_vis (co_panels c i j) = negb (Nat.ltb i j)).
  { unfold corner_init in E. destruct limits as [l|]; cbn [user_pairs] in E.
    - destruct (set_extrema_plain size rotate (map (fun p : R * R => LvPair (fst p) (snd p)) l) (fresh_panels size)) as (ps & E1 & EP); [rewrite map_length; exact HL|]. rewrite E1 in E. cbn [bind] in E. injection E as <-. cbn [co_panels].
      unfold set_extrema in E1. rewrite !map_length, HL in E1. destruct (Nat.eqb size 2) eqn:E2; cbn [andb negb bind] in E1; rewrite ?map_length, HL, Nat.eqb_refl in E1; cbn [negb] in E1; injection E1 as <-;
      apply Nat.ltb_lt in Hi as Bi; apply Nat.ltb_lt in Hj as Bj; rewrite Bi, Bj; cbn [andb negb]; destruct (Nat.ltb i j) eqn:L; cbn [p_vis]; [reflexivity| |reflexivity|]; (destruct (Nat.eqb i j); [destruct (andb _ _)|]); cbn [p_vis]; unfold fresh_panels; cbn [p_vis]; rewrite ?L; reflexivity.
    - injection E as <-. reflexivity. }
  rewrite V. split; [destruct v; lia|]. split; [destruct h; lia|]. unfold in_corner. destruct (Nat.ltb_spec i j) as [L|L]; cbn [negb]; destruct v, h; split; try (intros; lia); try (intros X; discriminate X); auto; intros; try lia; reflexivity.
Qed.
Theorem origin_distinct size o i j i' j' : (i < size)%nat -> (j < size)%nat -> (i' < size)%nat -> (j' < size)%nat -> screen size o i j = screen size o i' j' -> i = i' /\ j = j'.
Proof. intros. destruct o as [[] []]; unfold screen in *; cbn [fst snd] in *; match goal with H : _ = _ |- _ => injection H as ? ? end; lia. Qed.

(* ------------------------------------------------------------ weights *)
Theorem hist_unweighted st s w r : do_hist st s w = Ok r -> exists d, r = DrawData d WNone.
Proof.
  unfold do_hist. destruct (stored_kde st s) as [x|]; [|discriminate]. cbn [bind]. destruct (parse_kde_data x w) as [[[k d] w']|]; [|discriminate]. cbn [bind fst snd].
  unfold do_plot_data. cbn [bind]. unfold parse_kde_data, check_weights. cbn [bind fst snd]. intros E. injection E as <-. eauto.
Qed.
Theorem hist_draws st d w kw : check_weights (length (nth 0 d [])) w = Ok kw -> do_hist st (Some (SrcData d)) w = Ok (DrawData d WNone).
Proof. intros H. unfold do_hist, stored_kde, parse_kde_data. cbn [bind]. rewrite H. reflexivity. Qed.
Theorem stored_weights d w st kw : store (SrcData d) w = Ok st -> check_weights (length (nth 0 d [])) w = Ok kw ->
  do_plot_data st None WNone = Ok (DrawData d WNone) /\ do_plot_kde st None WNone = Ok (DrawKde (d, kw)) /\ do_plot st None WNone = Ok (DrawKde (d, kw)).
Proof. intros E H. unfold store, parse_kde_data in E. rewrite H in E. cbn [bind fst snd] in E. injection E as <-. repeat split. Qed.
Theorem stored_kde_weights d kw st : store (SrcKde d kw) WNone = Ok st ->
  do_plot_data st None WNone = Ok (DrawData d WNone) /\ do_plot_kde st None WNone = Ok (DrawKde (d, kw)) /\ do_plot st None WNone = Ok (DrawKde (d, kw)).
Proof. intros E. injection E as <-. repeat split. Qed.
Theorem given_weights st d w kw : check_weights (length (nth 0 d [])) w = Ok kw ->
  do_plot_data st (Some (SrcData d)) w = Ok (DrawData d w) /\ do_plot_kde st (Some (SrcData d)) w = Ok (DrawKde (d, kw)) /\ do_plot st (Some (SrcData d)) w = Ok (DrawKde (d, kw)).
Proof. intros H. unfold do_plot_data, do_plot_kde, do_plot, stored_kde, parse_kde_data. cbn [bind]. rewrite H. repeat split. Qed.
Theorem given_kde st d kw : do_plot_data st (Some (SrcKde d (Some kw))) WNone = Ok (DrawData d (WArr (map Fin kw)))
  /\ do_plot_data st (Some (SrcKde d None)) WNone = Ok (DrawData d WNone)
  /\ (forall o, do_plot_kde st (Some (SrcKde d o)) WNone = Ok (DrawKde (d, o)) /\ do_plot st (Some (SrcKde d o)) WNone = Ok (DrawKde (d, o))).
Proof. repeat split. Qed.
Theorem kde_and_weights st d kw w : w <> WNone -> store (SrcKde d kw) w = Err ValueError /\ do_plot_data st (Some (SrcKde d kw)) w = Err ValueError
  /\ do_plot_kde st (Some (SrcKde d kw)) w = Err ValueError /\ do_plot st (Some (SrcKde d kw)) w = Err ValueError /\ do_hist st (Some (SrcKde d kw)) w = Err ValueError.
Proof. destruct w; [contradiction| |]; repeat split. Qed.
Theorem nothing_to_plot w : do_plot_data None None w = Err ValueError /\ do_plot_kde None None w = Err ValueError /\ do_plot None None w = Err ValueError /\ do_hist None None w = Err ValueError.
Proof. repeat split. Qed.

(** As many parameters as panels on the diagonal, or nothing is drawn. *)
Lemma wrong_size sorter c : (forall k, length (pc_data k) <> co_size c -> corner_plot sorter c k = Err ValueError)
  /\ (forall vals limit, length vals <> co_size c -> plot_limits c vals limit = Err ValueError).
Proof.
  split.
  - intros k H. unfold corner_plot. apply Nat.eqb_neq in H. rewrite H. reflexivity.
  - intros vals limit H. unfold plot_limits. apply Nat.eqb_neq in H. rewrite H. reflexivity.
Qed.

(** C136, C137: labels, ticks and figures of corner plots. *)
From Coq Require Import String ZArith Lia.
From Verif Require Import Base ModelCornerInit SpecCornerInit ProofCornerInit.
Open Scope R_scope.
Notation length := List.length.

(** * C136 *)
(** Construction succeeds exactly when labels and ticks are not given or are enough. *)
Theorem C136_succeeds : forall p size rotate origin labels ticks grid, (1 <= size)%nat ->
  (enough size labels /\ enough size ticks -> exists fs p', corner_faces p size rotate origin labels ticks None None grid (mkSp None None None None None None) = (Ok fs, p'))
  /\ (~ (enough size labels /\ enough size ticks) -> exists p', corner_faces p size rotate origin labels ticks None None grid (mkSp None None None None None None) = (Err IndexError, p')).
Proof. exact corner_iff. Qed.
Print Assumptions C136_succeeds.

(** The visible panels are those on and below the diagonal. *)
Theorem C136_visible : forall p size rotate origin labels ticks fig figsize grid s fs p' i j, corner_faces p size rotate origin labels ticks fig figsize grid s = (Ok fs, p') ->
  (i < size)%nat -> (j < size)%nat -> f_vis (fs i j) = true <-> (j <= i)%nat.
Proof. exact hidden_above. Qed.
Print Assumptions C136_visible.

(** A label stands only along an axis that shows its parameter ... *)
Theorem C136_labels : forall p size rotate origin labels ticks fig figsize grid s fs p', corner_faces p size rotate origin labels ticks fig figsize grid s = (Ok fs, p') ->
  let lab k := match labels with None => EmptyString | Some l => nth k l EmptyString end in
  forall i j, panel_of size i j ->
  (f_xlabel (fs i j) = EmptyString \/ exists k, param_x size rotate i j k /\ f_xlabel (fs i j) = lab k)
  /\ (f_ylabel (fs i j) = EmptyString \/ exists k, param_y size rotate i j k /\ f_ylabel (fs i j) = lab k).
Proof. exact labels_true. Qed.
Print Assumptions C136_labels.

(** ... and every parameter has its label somewhere. *)
Theorem C136_all_labels : forall p size rotate origin labels ticks fig figsize grid s fs p', corner_faces p size rotate origin labels ticks fig figsize grid s = (Ok fs, p') ->
  let lab k := match labels with None => EmptyString | Some l => nth k l EmptyString end in
  forall k, (k < size)%nat -> exists i j, panel_of size i j /\ f_vis (fs i j) = true
  /\ (param_x size rotate i j k /\ f_xlabel (fs i j) = lab k \/ param_y size rotate i j k /\ f_ylabel (fs i j) = lab k).
Proof. exact labels_all. Qed.
Print Assumptions C136_all_labels.

(** The ticks of an axis are those of its parameter; axes of densities keep automatic ticks. *)
Theorem C136_ticks : forall p size rotate origin labels ticks fig figsize grid s fs p', corner_faces p size rotate origin labels ticks fig figsize grid s = (Ok fs, p') ->
  let tick k := match ticks with None => None | Some l => nth k l None end in
  forall i j, panel_of size i j ->
  (forall k, param_x size rotate i j k -> f_xticks (fs i j) = tick k) /\ (forall k, param_y size rotate i j k -> f_yticks (fs i j) = tick k)
  /\ ((forall k, ~ param_x size rotate i j k) -> f_xticks (fs i j) = None) /\ ((forall k, ~ param_y size rotate i j k) -> f_yticks (fs i j) = None).
Proof. exact ticks_of. Qed.
Print Assumptions C136_ticks.

(** Labels and ticks of the last row and the first column are on the side of the origin. *)
Theorem C136_sides : forall p size rotate origin labels ticks fig figsize grid s fs p', corner_faces p size rotate origin labels ticks fig figsize grid s = (Ok fs, p') ->
  (forall j, (j < size)%nat -> f_top (fs (size - 1)%nat j) = fst origin) /\ (forall i, (0 < i < size)%nat -> f_right (fs i 0%nat) = snd origin).
Proof. exact sides_outer. Qed.
Print Assumptions C136_sides.

(** Those of the diagonal are on the other side, except for the first panel. *)
Theorem C136_diagonal : forall p size rotate origin labels ticks fig figsize grid s fs p', corner_faces p size rotate origin labels ticks fig figsize grid s = (Ok fs, p') ->
  f_right (fs 0%nat 0%nat) = false /\ forall i, (0 < i < size)%nat -> f_right (fs i i) = negb (snd origin).
Proof. exact sides_diagonal. Qed.
Print Assumptions C136_diagonal.

(** More axes than parameters cannot be used with labels or ticks for the parameters or none. *)
Theorem C136_more_axes : forall size dim rotate origin labels ticks fs, (size < dim)%nat -> (exactly size labels \/ exactly size ticks) ->
  init_faces size dim rotate origin labels ticks fs = Err IndexError.
Proof. exact more_axes. Qed.
Print Assumptions C136_more_axes.

(** Grid lines are drawn whatever the argument [grid]. *)
Theorem C136_grid_refuted : forall p size rotate origin labels ticks fig figsize grid s fs p', corner_faces p size rotate origin labels ticks fig figsize grid s = (Ok fs, p') ->
  forall i j, panel_of size i j -> f_grid (fs i j) = true.
Proof. exact grid_always. Qed.
Print Assumptions C136_grid_refuted.

Example C136_example : exists fs p', corner_faces two_figs 3 true (true, false) (Some ["a"; "b"; "c"]%string) (Some [None; Some [1; 2]; None]) None None GrFalse (mkSp None None None None None None) = (Ok fs, p')
  /\ panel_of 3 2 1 /\ f_xlabel (fs 2%nat 1%nat) = "b"%string /\ f_ylabel (fs 2%nat 0%nat) = "c"%string /\ f_xticks (fs 2%nat 1%nat) = Some [1; 2] /\ f_grid (fs 2%nat 1%nat) = true.
Proof.
  destruct (C136_succeeds two_figs 3 true (true, false) (Some ["a"; "b"; "c"]%string) (Some [None; Some [1; 2]; None]) GrFalse) as [H _]; [lia|].
  destruct H as (fs & p' & E); [cbn; lia|]. exists fs, p'. split; [exact E|]. split; [unfold panel_of; lia|].
  destruct (face_of _ _ _ _ _ _ _ _ _ _ _ _ E 2 1 ltac:(unfold panel_of; lia)) as (_ & Hg & Hx & _ & Ht & _). destruct (face_of _ _ _ _ _ _ _ _ _ _ _ _ E 2 0 ltac:(unfold panel_of; lia)) as (_ & _ & _ & Hy & _).
  rewrite Hx, Hy, Ht, Hg. repeat split.
Qed.

(** * C137 *)
(** Without [fig]: a new figure, the current one from then on, with the given or the default size and spacing; no other figure changes. *)
Theorem C137_new : forall p size figsize grid s f st p', figax p size None figsize grid s = (Ok (f, st), p') ->
  f = pl_count p /\ pl_current p' = f /\ pl_count p' = S (pl_count p) /\ fg_size (pl_figs p' f) = figure_size size figsize
  /\ fg_h (pl_figs p' f) = match sp_h s with Some v => v | None => 1 / 10 end /\ fg_w (pl_figs p' f) = match sp_w s with Some v => v | None => 1 / 10 end
  /\ forall k, k <> f -> pl_figs p' k = pl_figs p k.
Proof. exact figax_new. Qed.
Print Assumptions C137_new.

(** The default size: square, four per parameter between 6 and 20. *)
Theorem C137_size : forall size, (1 <= size)%nat -> exists c, figure_size size None = (c, c) /\ 6 <= c <= 20 /\ ((2 <= size <= 5)%nat -> c = 4 * INR size).
Proof. exact size_default. Qed.
Print Assumptions C137_size.

(** With [fig]: the spacing is set on the current figure, and on no other. *)
Theorem C137_given : forall p size fig grid s f st p', figax p size (Some fig) None grid s = (Ok (f, st), p') ->
  f = fig /\ pl_count p' = pl_count p /\ pl_current p' = pl_current p
  /\ fg_h (pl_figs p' (pl_current p)) = match sp_h s with Some v => v | None => 1 / 10 end /\ fg_w (pl_figs p' (pl_current p)) = match sp_w s with Some v => v | None => 1 / 10 end
  /\ forall k, k <> pl_current p -> pl_figs p' k = pl_figs p k.
Proof. exact figax_given. Qed.
Print Assumptions C137_given.

(** So a figure given by the user can stay as it was while another one is changed. *)
Theorem C137_wrong_figure_refuted : exists p f st p', figax p 3 (Some 0%nat) None GrTrue (mkSp None None None None (Some (1 / 2)) (Some (1 / 2))) = (Ok (f, st), p') /\ f = 0%nat /\ (0 < pl_count p)%nat
  /\ pl_figs p' 0%nat = pl_figs p 0%nat /\ fg_h (pl_figs p 0%nat) <> 1 / 2 /\ fg_h (pl_figs p 1%nat) <> 1 / 2 /\ fg_h (pl_figs p' 1%nat) = 1 / 2.
Proof. exact wrong_figure. Qed.
Print Assumptions C137_wrong_figure_refuted.

(** [figsize] together with [fig], and no parameters at all, are errors. *)
Theorem C137_figsize : forall p size fig sz grid s, exists p', figax p size (Some fig) (Some sz) grid s = (Err TypeError, p').
Proof. exact figax_size_given. Qed.
Print Assumptions C137_figsize.
Theorem C137_no_parameters : forall p size fig figsize grid s r p', (fig = None \/ figsize = None) -> figax p size fig figsize grid s = (r, p') -> size = 0%nat -> r = Err ValueError.
Proof. exact figax_none. Qed.
Print Assumptions C137_no_parameters.

Example C137_example : exists st p', figax two_figs 3 None (Some (SzNum 7)) GrTrue (mkSp None None None None (Some (1 / 2)) None) = (Ok (2%nat, st), p').
Proof.
  unfold figax, plt_figure, subplots_adjust, two_figs. cbn. rewrite (proj2 (Rleb_false (9 / 10) (1 / 8))), (proj2 (Rleb_false (88 / 100) (11 / 100))) by lra. cbn. eauto.
Qed.

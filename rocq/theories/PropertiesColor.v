(** Properties C109-C110: colours and colormaps. *)
From Verif Require Import Base ModelColor SpecColor ProofColor.
Open Scope R_scope.
Notation length := List.length.

(** * C109 *)
(** Corner plots: the panels off the diagonal use a colormap made from a colour, never the colormap given; of that only the middle is used, and nothing if a colour is given. *)
Theorem C109_corner : forall next next' color cm, exists c, corner_colours next next' color cm = (c, (c, color_to_cmap c))
  /\ (forall c0, color = Some c0 -> c = c0) /\ (color = None -> forall m, cm = Some m -> c = m (1 / 2)) /\ (color = None -> cm = None -> c = next).
Proof. exact corner_cmap. Qed.
Print Assumptions C109_corner.

(** dist2d and contour on their own use the colormap given, unless a colour is given too. *)
Theorem C109_alone : forall next m, dist2d_colours next None (Some m) = (m (1 / 2), m) /\ forall c cm, dist2d_colours next (Some c) cm = (c, color_to_cmap c).
Proof. exact dist2d_cmap. Qed.
Print Assumptions C109_alone.

(** A colormap from black to white given to Corner is drawn from light to dark, and reddish. *)
Theorem C109_given_refuted : exists m c m', corner_colours (grey 0) (grey 0) None (Some m) = (c, (c, m'))
  /\ (forall x y, x < y -> c_r (m x) < c_r (m y)) /\ (forall x y, x <= y -> c_r (m' y) <= c_r (m' x)) /\ c_r (m 0) = 0 /\ 0 < c_r (m' 0) /\ c_g (m (1 / 2)) = c_r (m (1 / 2)) /\ c_g (m' (1 / 2)) < c_r (m' (1 / 2)).
Proof. exact corner_cmap_refuted. Qed.
Print Assumptions C109_given_refuted.

Example C109_example : fst (snd (corner_colours (grey 0) (grey 1) None (Some grey))) = grey (1 / 2) /\ snd (dist2d_colours (grey 0) None (Some grey)) = grey.
Proof. split; reflexivity. Qed.

(** * C110 *)
(** All colours are valid. *)
Theorem C110_valid : forall col x, valid_rgb col -> valid_rgb (color_to_cmap col x).
Proof. exact cmap_valid. Qed.
Print Assumptions C110_valid.

(** From light to dark in every component. *)
Theorem C110_dark : forall col x y, valid_rgb col -> x <= y -> darker (color_to_cmap col x) (color_to_cmap col y).
Proof. exact cmap_darker. Qed.
Print Assumptions C110_dark.

(** A colour that is not grey: the components keep their order in all colours of the map. *)
Theorem C110_order : forall col x i j, valid_rgb col -> ~ (c_r col = c_g col /\ c_g col = c_b col) -> (i < 3)%nat -> (j < 3)%nat ->
  nth i (channels col) 0 <= nth j (channels col) 0 -> nth i (channels (color_to_cmap col x)) 0 <= nth j (channels (color_to_cmap col x)) 0.
Proof. exact cmap_order. Qed.
Print Assumptions C110_order.

(** The colour in the middle: brightness and saturation are moved by a quarter towards one, with the same hue. *)
Theorem C110_middle : forall c v u, valid_rgb c -> brightest c v -> faintest c u -> u < v ->
  strengthen c = map_rgb (fun x => (3 * v + 1) / 4 * (1 - (3 * ((v - u) / v) + 1) / 4 * ((v - x) / (v - u)))) c.
Proof. exact strengthen_colour. Qed.
Print Assumptions C110_middle.

(** A grey, black or white included, becomes a red. *)
Theorem C110_grey : forall g x, 0 <= g <= 1 -> c_g (color_to_cmap (grey g) x) = c_b (color_to_cmap (grey g) x) /\ c_g (color_to_cmap (grey g) x) <= c_r (color_to_cmap (grey g) x)
  /\ c_g (color_to_cmap (grey g) (1 / 2)) < c_r (color_to_cmap (grey g) (1 / 2)).
Proof. exact cmap_grey. Qed.
Print Assumptions C110_grey.

(** The red of a grey. *)
Theorem C110_grey_middle : forall g, 0 <= g <= 1 -> strengthen (grey g) = mkRGB ((3 * g + 1) / 4) (3 / 4 * ((3 * g + 1) / 4)) (3 / 4 * ((3 * g + 1) / 4)).
Proof. exact strengthen_grey. Qed.
Print Assumptions C110_grey_middle.

Example C110_example : valid_rgb (mkRGB 1 (1 / 2) 0) /\ brightest (mkRGB 1 (1 / 2) 0) 1 /\ faintest (mkRGB 1 (1 / 2) 0) 0 /\ strengthen (mkRGB 1 (1 / 2) 0) = mkRGB 1 (1 / 2) 0
  /\ strengthen (mkRGB 0 (1 / 2) 0) = mkRGB 0 (5 / 8) 0 /\ strengthen (grey 0) = mkRGB (1 / 4) (3 / 16) (3 / 16).
Proof.
  assert (V : valid_rgb (mkRGB 1 (1 / 2) 0)) by (intros x H; cbn in H; destruct H as [<-|[<-|[<-|[]]]]; lra).
  assert (V2 : valid_rgb (mkRGB 0 (1 / 2) 0)) by (intros x H; cbn in H; destruct H as [<-|[<-|[<-|[]]]]; lra).
  assert (B : brightest (mkRGB 1 (1 / 2) 0) 1) by (split; [cbn; auto|intros x H; cbn in H; destruct H as [<-|[<-|[<-|[]]]]; lra]).
  assert (F : faintest (mkRGB 1 (1 / 2) 0) 0) by (split; [cbn; auto|intros x H; cbn in H; destruct H as [<-|[<-|[<-|[]]]]; lra]).
  assert (B2 : brightest (mkRGB 0 (1 / 2) 0) (1 / 2)) by (split; [cbn; auto|intros x H; cbn in H; destruct H as [<-|[<-|[<-|[]]]]; lra]).
  assert (F2 : faintest (mkRGB 0 (1 / 2) 0) 0) by (split; [cbn; auto|intros x H; cbn in H; destruct H as [<-|[<-|[<-|[]]]]; lra]).
  repeat (split; [assumption|]). split; [rewrite (strengthen_colour _ 1 0 V B F) by lra; unfold map_rgb; cbn; f_equal; field|].
  split; [rewrite (strengthen_colour _ (1 / 2) 0 V2 B2 F2) by lra; unfold map_rgb; cbn; f_equal; field|rewrite strengthen_grey by lra; f_equal; field].
Qed.


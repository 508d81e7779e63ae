(** Property C116: carpet plots. *)
From Verif Require Import Base ModelLinAlg ModelKernels ModelKDE ModelUtils ModelGrid ModelNd ModelInterp ModelPlot ModelDist ModelCarpet SpecUtils SpecCarpet ProofCarpet.
Open Scope R_scope.
Notation length := List.length.

(** * C116 *)
(** The points lie at the data, in their order, or at those chosen if there are more than the limit; one size for each. *)
Theorem C116_points : forall sel z top xx ystd yave shift limit fancy random rotate alpha dr, carpet sel z top xx ystd yave shift limit fancy random rotate alpha = Ok (Some dr) ->
  length (dr_sizes dr) = length (dr_points dr)
  /\ ((forall k, limit = Some k -> (length xx <= k)%nat) -> map (data_of rotate) (dr_points dr) = xx)
  /\ (forall k, limit = Some k -> (k < length xx)%nat -> map (data_of rotate) (dr_points dr) = map (fun i => nth i xx 0) (sel (length xx) k)).
Proof. exact carpet_points. Qed.
Print Assumptions C116_points.

(** ValueError exactly for unknown noise and for normal noise with a negative spread; with fancy and equal data all ordinates are nan. *)
Theorem C116_outcome : forall sel z top xx ystd yave shift limit fancy random rotate alpha a s l, placed top ystd yave a s -> shown sel limit xx l ->
  (random = NoOther \/ random = NoNormal /\ s < 0 -> carpet sel z top xx ystd yave shift limit fancy random rotate alpha = Err ValueError)
  /\ (random = NoUniform \/ random = NoNormal /\ 0 <= s ->
      (fancy = true /\ all_equal l -> carpet sel z top xx ystd yave shift limit fancy random rotate alpha = Ok None)
      /\ (~ (fancy = true /\ all_equal l) -> exists dr, carpet sel z top xx ystd yave shift limit fancy random rotate alpha = Ok (Some dr))).
Proof. exact carpet_outcome. Qed.
Print Assumptions C116_outcome.

(** Uniform noise, also with fancy: every ordinate is within the spread of the baseline plus shift. *)
Theorem C116_band : forall sel z top xx ystd yave shift limit fancy rotate alpha dr a s, placed top ystd yave a s -> (forall k, 0 <= z k <= 1) ->
  carpet sel z top xx ystd yave shift limit fancy NoUniform rotate alpha = Ok (Some dr) ->
  forall p, In p (dr_points dr) -> Rabs (ordinate rotate p - (a + shift)) <= Rabs s.
Proof. exact carpet_band. Qed.
Print Assumptions C116_band.

(** Uniform noise by default: a strip below zero. *)
Theorem C116_below : forall sel z top xx limit fancy rotate alpha dr, 0 < top -> (forall k, 0 <= z k <= 1) ->
  carpet sel z top xx None None 0 limit fancy NoUniform rotate alpha = Ok (Some dr) ->
  forall p, In p (dr_points dr) -> - (12 / 100) * top <= ordinate rotate p <= - (8 / 100) * top.
Proof. exact carpet_below. Qed.
Print Assumptions C116_below.

(** Normal noise by default: below zero exactly for random numbers under five standard deviations. *)
Theorem C116_normal : forall sel z top xx limit rotate alpha dr, 0 < top ->
  carpet sel z top xx None None 0 limit false NoNormal rotate alpha = Ok (Some dr) ->
  forall k, (k < length (dr_points dr))%nat -> (ordinate rotate (nth k (dr_points dr) (0, 0)) < 0 <-> z k < 5).
Proof. exact carpet_normal_below. Qed.
Print Assumptions C116_normal.

(** The returned extent is that of the ordinates without the shift. *)
Theorem C116_extent : forall sel z top xx ystd yave shift limit fancy random rotate alpha dr, carpet sel z top xx ystd yave shift limit fancy random rotate alpha = Ok (Some dr) -> dr_points dr <> [] ->
  exists lo hi, dr_extent dr = Some (Some lo, Some hi) /\ spans (map (fun p => ordinate rotate p - shift) (dr_points dr)) lo hi.
Proof. exact carpet_extent. Qed.
Print Assumptions C116_extent.

(** With a shift it can miss all points drawn. *)
Theorem C116_extent_refuted : exists sel z top xx ystd yave shift limit fancy random rotate alpha dr lo hi,
  carpet sel z top xx ystd yave shift limit fancy random rotate alpha = Ok (Some dr) /\ dr_extent dr = Some (Some lo, Some hi)
  /\ dr_points dr <> [] /\ (forall p, In p (dr_points dr) -> hi < ordinate rotate p).
Proof. exact carpet_extent_refuted. Qed.
Print Assumptions C116_extent_refuted.

(** Opacity. *)
Theorem C116_opacity : forall sel z top xx ystd yave shift limit fancy random rotate alpha dr, carpet sel z top xx ystd yave shift limit fancy random rotate alpha = Ok (Some dr) ->
  (forall v, alpha = Some v -> 0 <= dr_alpha dr <= 1 /\ (0 <= v <= 1 -> dr_alpha dr = v) /\ (v < 0 -> dr_alpha dr = 0) /\ (1 < v -> dr_alpha dr = 1))
  /\ (alpha = None -> (length (dr_points dr) <= 100)%nat -> dr_alpha dr = 1)
  /\ (alpha = None -> (100 < length (dr_points dr))%nat -> 0 < dr_alpha dr < 1 /\ INR (length (dr_points dr)) * (dr_alpha dr * dr_alpha dr) = 100).
Proof. exact carpet_opacity. Qed.
Print Assumptions C116_opacity.

(** Sizes: from 100 to 5, with the area of all points constant in between. *)
Theorem C116_sizes : forall sel z top xx ystd yave shift limit random rotate alpha dr, carpet sel z top xx ystd yave shift limit false random rotate alpha = Ok (Some dr) ->
  forall s, In s (dr_sizes dr) -> 5 <= s <= 100 /\ ((length (dr_points dr) <= 9)%nat -> s = 100) /\ ((3600 <= length (dr_points dr))%nat -> s = 5)
  /\ ((9 <= length (dr_points dr) <= 3600)%nat -> INR (length (dr_points dr)) * (s * s) = 90000).
Proof. exact carpet_sizes_plain. Qed.
Print Assumptions C116_sizes.

(** With fancy: larger by 2/3 for every standard deviation from the median. *)
Theorem C116_fancy : forall sel z top xx ystd yave shift limit random rotate alpha dr, carpet sel z top xx ystd yave shift limit true random rotate alpha = Ok (Some dr) ->
  exists b m s, 5 <= b <= 100 /\ median_of (map (data_of rotate) (dr_points dr)) m /\ (dr_points dr <> [] -> 0 < s /\ spread_of (map (data_of rotate) (dr_points dr)) s)
  /\ forall k, (k < length (dr_points dr))%nat -> nth k (dr_sizes dr) 0 = b * (1 + 2 / 3 * (Rabs (data_of rotate (nth k (dr_points dr) (0, 0)) - m) / s)).
Proof. exact carpet_sizes_fancy. Qed.
Print Assumptions C116_fancy.

Example C116_example : exists dr, carpet (fun _ _ => []) (fun _ => 1 / 4) 5 [3; 1; 2] None None 0 None true NoUniform true None = Ok (Some dr)
  /\ map (data_of true) (dr_points dr) = [3; 1; 2].
Proof. exact carpet_example. Qed.


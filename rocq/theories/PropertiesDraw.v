(** Property theorems C139 and C140: what is drawn.  Nothing but property theorems and examples meeting their hypotheses. *)
From Coq Require Import ZArith Permutation.
From Verif Require Import Base ModelLinAlg ModelKernels ModelKDE ModelUtils ModelNd ModelExtrema ModelReflect ModelApi ModelGrid ModelSample ModelPlot ModelDist ModelContour ModelCarpet ModelDraw
  SpecUtils SpecNd SpecPlot SpecSample SpecContour SpecDraw ProofUtils ProofUtils2 ProofTop2 ProofContour ProofDraw ProofDraw2.
Open Scope R_scope.
Notation length := List.length.

(** * C139 *)
(** A drawing that succeeds consists of what is asked for, in this order; where a dense region is painted over; which handle is returned. *)
Theorem C139_components : forall sorter sel K xs ys ws ex ey params quantiles sigmas pad ol median scatter contour hist mask_dense mask flat points hd,
  let d := dist2d_draw sorter sel K xs ys ws ex ey params quantiles sigmas pad ol median scatter contour hist mask_dense mask flat points in
  snd d = Ok hd -> exists masked,
  map kind_of (fst d) = only (asked scatter) [KScatter] ++ only median [KVline; KHline] ++ only hist [KHist] ++ only contour [KLines] ++ only masked [KMask]
  /\ (forall b, mask_dense = Some b -> (b = false -> masked = false) /\ (b = true -> contour = true -> masked = true))
  /\ (mask_dense = None -> (asked scatter = false \/ (hist = false /\ contour = false) -> masked = false) /\ (asked scatter = true -> contour = true -> masked = true))
  /\ match hd with HNone => asked scatter = false /\ hist = false /\ contour = false
     | HScatter => asked scatter = true /\ hist = false
     | HHist => hist = true
     | HLine l => asked scatter = false /\ hist = false /\ exists cs z lines, In (ALines cs z lines) (fst d) /\ nth_error lines 1 = Some l end.
Proof. exact dist2d_components. Qed.
Print Assumptions C139_components.

(** The region painted over, which covers the points, ends at the outermost contour. *)
Theorem C139_mask : forall sorter sel K xs ys ws ex ey params quantiles sigmas pad ol median scatter contour hist mask_dense mask flat points cs z lines cs' z' lo hi,
  let d := dist2d_draw sorter sel K xs ys ws ex ey params quantiles sigmas pad ol median scatter contour hist mask_dense mask flat points in
  In (ALines cs z lines) (fst d) -> In (AMask cs' z' lo hi) (fst d) ->
  cs' = cs /\ (forall i j, z' i j = Some (at_ z [i; j])) /\ lowest_level lines lo /\ exists v, hi = Some v /\ greatest_entry z v /\ lo < v.
Proof. exact dist2d_mask_edge. Qed.
Print Assumptions C139_mask.

(** The layers, whatever the order of drawing: points below that region, then the histogram, the contours, the medians. *)
Theorem C139_layers : forall a b, In (kind_of a, kind_of b) [(KScatter, KMask); (KMask, KHist); (KHist, KLines); (KLines, KVline); (KLines, KHline)] -> (zorder a < zorder b)%nat.
Proof. exact layers. Qed.
Print Assumptions C139_layers.

(** One contour and nothing else: never a result, an IndexError once the line is drawn. *)
Theorem C139_one_contour : forall sorter sel K xs ys ws ex ey params quantiles sigmas pad ol median scatter contour hist mask_dense mask flat points,
  let d := dist2d_draw sorter sel K xs ys ws ex ey params quantiles sigmas pad ol median scatter contour hist mask_dense mask flat points in
  scatter = NaNone \/ scatter = NaFalse -> hist = false -> contour = true -> length (fst (default_quantiles quantiles sigmas)) = 1%nat ->
  (exists e, snd d = Err e) /\ forall cs z lines, ol = OlTrue \/ ol = OlFalse -> In (ALines cs z lines) (fst d) -> snd d = Err IndexError.
Proof. exact dist2d_one_contour. Qed.
Print Assumptions C139_one_contour.

Theorem C139_one_contour_refuted : exists K xs ys ws ex ey q points cs z lines, 0 < q < 1
  /\ dist2d_draw isort (fun _ k => seq 0 k) K xs ys (Some ws) ex ey [0; 1]%nat (Some [q]) None PadNone OlTrue false NaFalse true false None MbFalse false (Ok points) = ([ALines cs z lines], Err IndexError).
Proof. exact one_refuted. Qed.
Print Assumptions C139_one_contour_refuted.

(** The points are data, all of them or as many as asked for, none twice; up to a hundred are opaque. *)
Theorem C139_points : forall sorter sel K xs ys ws ex ey params quantiles sigmas pad ol median scatter contour hist mask_dense mask flat points pts al,
  let d := dist2d_draw sorter sel K xs ys ws ex ey params quantiles sigmas pad ol median scatter contour hist mask_dense mask flat points in
  chooses sel -> In (AScatter pts al) (fst d) ->
  (forall p, In p pts -> In p (combine xs ys)) /\ (scatter = NaTrue -> pts = combine xs ys)
  /\ (forall r, scatter = NaNum r -> exists k, (1 <= k)%nat /\ INR k <= r < INR k + 1 /\ length pts = Nat.min k (length (combine xs ys))
       /\ exists is, NoDup is /\ (forall i, In i is -> (i < length (combine xs ys))%nat) /\ pts = map (fun i => nth i (combine xs ys) (0, 0)) is)
  /\ 0 < al <= 1 /\ ((length pts <= 100)%nat -> al = 1).
Proof. exact dist2d_points. Qed.
Print Assumptions C139_points.

(** The vertical line is the median of the first parameter, the horizontal one of the second; with weights it is their quantile 1/2. *)
Theorem C139_medians : forall sorter sel K xs ys ws ex ey params quantiles sigmas pad ol median scatter contour hist mask_dense mask flat points,
  let d := dist2d_draw sorter sel K xs ys ws ex ey params quantiles sigmas pad ol median scatter contour hist mask_dense mask flat points in
  (forall x o, In (AVline x o) (fst d) -> o = ol_truth ol /\ (ws = None -> xs <> [] -> median_of xs x) /\ forall w, ws = Some w -> ModelUtils.quantiles sorter xs (Some [1 / 2]) (Some w) false = Ok [x])
  /\ (forall y o, In (AHline y o) (fst d) -> o = ol_truth ol /\ (ws = None -> ys <> [] -> median_of ys y) /\ forall w, ws = Some w -> ModelUtils.quantiles sorter ys (Some [1 / 2]) (Some w) false = Ok [y]).
Proof. exact dist2d_median_lines. Qed.
Print Assumptions C139_medians.

Example C139_example : snd (draw4 [1 / 10; 9 / 10] true NaTrue true) = Ok HHist /\ map kind_of (fst (draw4 [1 / 10; 9 / 10] true NaTrue true)) = [KScatter; KVline; KHline; KHist; KLines; KMask]
  /\ chooses (fun _ k => seq 0 k).
Proof.
  split; [apply draw4_all|]. split; [apply draw4_all|]. intros n k Hk. split; [apply seq_length|]. split; [apply seq_NoDup|]. intros i Hi. apply in_seq in Hi. lia.
Qed.

(** * C140 *)
(** One width for all lines, or one for each: every outline is twice as wide as its line, and line and outline together are as opaque as asked for. *)
Theorem C140_outline : forall edges hist quantiles levels pad w a r, 0 <= a <= 1 -> snd (draw_contour2d edges hist quantiles levels pad (LwNum w) (Some a) OlTrue) = Ok r ->
  forall l, In l (snd r) -> outlined a l w.
Proof. exact outline_number. Qed.
Print Assumptions C140_outline.

Theorem C140_outline_list : forall edges hist quantiles levels pad ls a r, 0 <= a <= 1 -> snd (draw_contour2d edges hist quantiles levels pad (LwList ls) (Some a) OlTrue) = Ok r ->
  length ls = length (snd r) -> forall i l w, nth_error (snd r) i = Some l -> nth_error ls i = Some w -> outlined a l w.
Proof. exact outline_list. Qed.
Print Assumptions C140_outline_list.

(** A list of another length is repeated for the lines, while all outlines have width 3 ... *)
Theorem C140_other_length : forall edges hist quantiles levels pad ls a r, 0 <= a <= 1 -> ls <> [] -> snd (draw_contour2d edges hist quantiles levels pad (LwList ls) (Some a) OlTrue) = Ok r ->
  length ls <> length (snd r) -> forall i l, nth_error (snd r) i = Some l -> ln_width l = nth_error ls (i mod length ls) /\ exists o, ln_outline l = Some (3, o).
Proof. exact outline_other. Qed.
Print Assumptions C140_other_length.

(** ... so that a line can cover its outline. *)
Theorem C140_other_length_refuted : exists edges hist levels ls r l, snd (draw_contour2d edges hist None (Some levels) PadNone (LwList ls) (Some 1) OlTrue) = Ok r /\ length ls <> length (snd r)
  /\ In l (snd r) /\ exists w o al, ln_width l = Some w /\ ln_outline l = Some (o, al) /\ o < w.
Proof. exact other_length_refuted. Qed.
Print Assumptions C140_other_length_refuted.

Theorem C140_no_outline : forall edges hist quantiles levels pad lw alpha r, snd (draw_contour2d edges hist quantiles levels pad lw alpha OlFalse) = Ok r -> forall l, In l (snd r) -> ln_outline l = None.
Proof. exact no_outline. Qed.
Print Assumptions C140_no_outline.

(** Which lines are drawn: those of the levels if they increase and one of them is inside the range of the array; if none is, one line at the lowest entry.
    An outline that is neither True nor False is refused after the lines are drawn. *)
Theorem C140_levels : forall edges hist quantiles levels pad w a ol cs h lv, 0 <= a <= 1 -> prep_hist edges hist pad = Ok (cs, h) -> contour_levels h quantiles levels = Ok lv ->
  let d := draw_contour2d edges hist quantiles levels pad (LwNum w) (Some a) ol in
  (~ at_least_2x2 h -> d = ([], Err TypeError))
  /\ (at_least_2x2 h -> (exists v, In v lv /\ strictly_inside h v) -> ~ incr_list lv -> d = ([], Err ValueError))
  /\ forall dl, (at_least_2x2 h -> (exists v, In v lv /\ strictly_inside h v) -> incr_list lv -> dl = lv -> exists lines, map ln_level lines = dl /\ fst d = [ALines cs h lines]
        /\ (plain_outline ol -> snd d = Ok (cs, h, lines)) /\ (~ plain_outline ol -> snd d = Err ValueError))
     /\ (at_least_2x2 h -> (forall v, In v lv -> ~ strictly_inside h v) -> forall v, least_entry h v -> dl = [v] -> exists lines, map ln_level lines = dl /\ fst d = [ALines cs h lines]
        /\ (plain_outline ol -> snd d = Ok (cs, h, lines)) /\ (~ plain_outline ol -> snd d = Err ValueError)).
Proof. exact contour2d_levels. Qed.
Print Assumptions C140_levels.

(** Fractions that are all smaller than the share of the densest bin: one line, around everything above the lowest entry ... *)
Theorem C140_small_fraction : forall edges hist qs pad w a ol cs h m v, 0 <= a <= 1 -> prep_hist edges hist pad = Ok (cs, h) -> at_least_2x2 h -> (forall u, entry h u -> 0 <= u) -> 0 < total_of h ->
  greatest_entry h m -> least_entry h v -> (forall q, In q qs -> q * total_of h < m) -> plain_outline ol ->
  exists l, draw_contour2d edges hist (Some qs) None pad (LwNum w) (Some a) ol = ([ALines cs h [l]], Ok (cs, h, [l])) /\ ln_level l = v.
Proof. exact contour2d_small. Qed.
Print Assumptions C140_small_fraction.

(** ... instead of the line asked for, which encloses less. *)
Theorem C140_small_fraction_refuted : exists edges hist q cs h l v, 0 < q < 1 /\ draw_contour2d edges hist (Some [q]) None PadNone (LwNum 1) (Some 1) OlTrue = ([ALines cs h [l]], Ok (cs, h, [l]))
  /\ least_entry h (ln_level l) /\ level_for h q v /\ ln_level l < v.
Proof. exact small_refuted. Qed.
Print Assumptions C140_small_fraction_refuted.

(** Two fractions with the same level, a third one with a level inside: ValueError, nothing is drawn. *)
Theorem C140_same_level : forall edges hist qs pad w a ol cs h i j u x qx, 0 <= a <= 1 -> prep_hist edges hist pad = Ok (cs, h) -> at_least_2x2 h -> (forall u, entry h u -> 0 <= u) -> 0 < total_of h ->
  (i < j)%nat -> (j < length qs)%nat -> level_for h (nth i qs 0) u -> level_for h (nth j qs 0) u -> In qx qs -> level_for h qx x -> strictly_inside h x ->
  draw_contour2d edges hist (Some qs) None pad (LwNum w) (Some a) ol = ([], Err ValueError).
Proof. exact contour2d_same. Qed.
Print Assumptions C140_same_level.

Theorem C140_same_level_refuted : exists edges hist qs, incr_list qs /\ (forall q, In q qs -> 0 < q < 1) /\ draw_contour2d edges hist (Some qs) None PadNone (LwNum 1) (Some 1) OlTrue = ([], Err ValueError).
Proof. exact same_refuted. Qed.
Print Assumptions C140_same_level_refuted.

Example C140_example : exists lines, draw_contour2d [[0; 1]; [0; 1]] h3 None (Some [3 / 2; 3]) PadNone (LwList [1; 2]) (Some (3 / 4)) OlTrue = ([ALines c3 h3 lines], Ok (c3, h3, lines)) /\ map ln_level lines = [3 / 2; 3].
Proof. destruct (h3_drawn (LwList [1; 2]) (3 / 4) OlTrue) as (lines & E & El & _); [right; eauto|lra|left; reflexivity|]. exists lines. split; [exact E|exact El]. Qed.

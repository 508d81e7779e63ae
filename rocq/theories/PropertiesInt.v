(** Properties C103-C104: integer data. *)
From Coq Require Import ZArith.
From Verif Require Import Base ModelLinAlg SpecLinAlg SpecIntegral ModelKernels ModelKDE SpecKDE ModelReflect ModelExtrema ModelResample ModelUtils ModelSample ModelInt SpecUtils SpecReflect SpecInt
  ProofKDE ProofUtils ProofExamples ProofReflect1 ProofTop2 ProofTop3 ProofInt ProofInt2.
Open Scope R_scope.
Notation length := List.length.

(** * C103 *)
(** Ranges of integer data are whole numbers and contain the data. *)
Theorem C103_contains : forall data prev s x y, data <> [] -> stretch_by s x y -> 0 <= x -> 0 <= y ->
  exists a b, minmax_int data false prev s StNone None = Ok (Some (Some a, Some b)) /\ whole a /\ whole b /\ forall z, In z data -> a <= IZR z <= b.
Proof. exact int_contains. Qed.
Print Assumptions C103_contains.

(** The stretched ends are cut to whole numbers, towards zero ... *)
Theorem C103_margin : forall data s x y m M, stretch_by s x y -> s <> StNone -> min_of (map IZR data) m -> max_of (map IZR data) M ->
  exists a b, minmax_int data false None s StNone None = Ok (Some (Some a, Some b))
  /\ towards_zero (m - x * (M - m) / 2) a /\ towards_zero (M + y * (M - m) / 2) b.
Proof. exact int_margin. Qed.
Print Assumptions C103_margin.

(** ... so that for data around zero a margin of less than one is lost. *)
Theorem C103_margin_lost : forall data s f m M, min_of (map IZR data) m -> max_of (map IZR data) M -> m <= 0 <= M -> s = StScalar f -> 0 <= f -> f * (M - m) < 2 ->
  minmax_int data false None s StNone None = Ok (Some (Some m, Some M)).
Proof. exact int_margin_lost. Qed.
Print Assumptions C103_margin_lost.

(** A previous range: when its ends are contained. *)
Theorem C103_prev : forall data p q m M, min_of (map IZR data) m -> max_of (map IZR data) M ->
  exists a b, minmax_int data false (Some (Some p, Some q)) StNone StNone None = Ok (Some (Some a, Some b))
  /\ (a <= p <-> m <= p \/ 0 <= p \/ whole p) /\ (q <= b <-> q <= M \/ q <= 0 \/ whole q).
Proof. exact int_prev. Qed.
Print Assumptions C103_prev.

(** Limits: when they are obeyed. *)
Theorem C103_limit : forall data p q m M, min_of (map IZR data) m -> max_of (map IZR data) M ->
  exists a b, minmax_int data false None StNone StNone (Some (Some p, Some q)) = Ok (Some (Some a, Some b))
  /\ (p <= a <-> p <= m \/ p <= 0 \/ whole p) /\ (b <= q <-> M <= q \/ 0 <= q \/ whole q).
Proof. exact int_limit. Qed.
Print Assumptions C103_limit.

(** With a logarithmic stretch the ranges are those of the same numbers as floats. *)
Theorem C103_log : forall data positive prev s limit, s <> StNone -> minmax_int data positive prev StNone s limit = minmax (map IZR data) positive prev StNone s limit.
Proof. exact int_log. Qed.
Print Assumptions C103_log.

(** positive=True: the numbers above zero only; ValueError if there are none. *)
Theorem C103_positive : forall data pos prev s ls limit, data <> [] -> (forall z, In z pos <-> In z data /\ (0 < z)%Z) -> 
  (pos = [] -> minmax_int data true prev s ls limit = Err ValueError)
  /\ (pos <> [] -> minmax_int data true prev s ls limit = minmax_int pos false prev s ls limit).
Proof. exact int_positive. Qed.
Print Assumptions C103_positive.

(** A range extended over float and then integer data need not contain the former. *)
Theorem C103_running_refuted : exists (floats : list R) (ints : list Z) r a b x,
  minmax floats false None StNone StNone None = Ok r /\ minmax_int ints false r StNone StNone None = Ok (Some (Some a, Some b)) /\ In x floats /\ x < a.
Proof. exact int_running_refuted. Qed.
Print Assumptions C103_running_refuted.

Example C103_example : (forall z, In z [4%Z] <-> In z [(-3)%Z; 4%Z] /\ (0 < z)%Z) /\ stretch_by (StScalar (/ 10)) (/ 10) (/ 10) /\ min_of (map IZR [(-3)%Z; 4%Z]) (-3) /\ max_of (map IZR [(-3)%Z; 4%Z]) 4 /\ / 10 * (4 - -3) < 2
  /\ minmax_int [(-3)%Z; 4%Z] false None (StScalar (/ 10)) StNone None = Ok (Some (Some (-3), Some 4)).
Proof.
  assert (A : min_of (map IZR [(-3)%Z; 4%Z]) (-3)) by (split; [left; reflexivity|intros x [<-|[<-|[]]]; lra]).
  assert (B : max_of (map IZR [(-3)%Z; 4%Z]) 4) by (split; [right; left; reflexivity|intros x [<-|[<-|[]]]; lra]).
  split; [intros z; cbn; intuition lia|].
  split; [split; reflexivity|]. split; [exact A|]. split; [exact B|]. split; [lra|]. apply (int_margin_lost _ _ (/ 10) (-3) 4 A B); try lra; reflexivity.
Qed.

(** * C104 *)
(** Boundaries at multiples of one half: integer data are reflected like floats. *)
Theorem C104_density : forall n data ws d M r0 K (prob : bool) pdim refl p, built_kde n data ws d M r0 K -> whole_points n data ->
  (forall r, r0 = Some r -> on_halves r) -> (forall r, refl = Some r -> on_halves r) ->
  kde_density_int K prob pdim refl p = kde_density K prob pdim refl p.
Proof. exact int_same. Qed.
Print Assumptions C104_density.

(** The same for resampling with reflection. *)
Theorem C104_resample : forall data w (refl : reflspec), whole_points (length refl) data -> on_halves refl -> drawn_from_int data w refl = drawn_from data w refl.
Proof. exact drawn_same. Qed.
Print Assumptions C104_resample.

(** Any lower boundary, one parameter: the total of the density, T being the upper tail of the kernel. *)
Theorem C104_total : forall data ws d M refl K (prob : bool) lo base, built_kde 1 data ws d M refl K -> whole_points 1 data ->
  exists h T f, kernel_density (mkKernel d 1 M) 1 1 [origin] (Some [1]) None None = Ok h /\ tails (fun t => h (pt1 t)) T
    /\ (forall p q, p <= q -> T q <= T p) /\ (forall p, T p + T (- p) = 1)
    /\ kde_density_int K prob 1 (Some [Some (Some lo, None)]) PNone = Ok f
    /\ forall img : pt -> R, (forall p, In p data -> towards_zero (2 * lo - p O) (img p)) ->
       is_tintN 1 f base (mass prob ws / lsum ws * sumf (fun pw => snd pw * (T (lo - fst pw O) + T (lo - img (fst pw)))) (combine data ws)).
Proof. exact int_total_lower. Qed.
Print Assumptions C104_total.

(** It is too large if the images are negative, too small if they are positive. *)
Theorem C104_side : forall data ws d M refl K (prob : bool) lo base, built_kde 1 data ws d M refl K -> whole_points 1 data ->
  exists f v, kde_density_int K prob 1 (Some [Some (Some lo, None)]) PNone = Ok f /\ is_tintN 1 f base v
    /\ ((forall p, In p data -> 2 * lo <= p O) -> mass prob ws <= v) /\ ((forall p, In p data -> p O <= 2 * lo) -> v <= mass prob ws).
Proof. exact int_total_side. Qed.
Print Assumptions C104_side.

(** Boundary chosen by True for integer data: the density does not have total one. *)
Theorem C104_true_refuted : exists data K lo f g v, built_kde 1 data [1] Box ident None K /\ whole_points 1 data
  /\ check_reflect 1 data (RSeq KList [EAtom (VBool true); EAtom VNone]) = (RSeq KList [EAtom (VBool true); EAtom VNone], Ok (Some [Some (Some lo, None)]))
  /\ kde_density K true 1 (Some [Some (Some lo, None)]) PNone = Ok f /\ is_tintN 1 f origin 1
  /\ kde_density_int K true 1 (Some [Some (Some lo, None)]) PNone = Ok g /\ is_tintN 1 g origin v /\ v < 3 / 4.
Proof. exact int_true_refuted. Qed.
Print Assumptions C104_true_refuted.

(** Given boundary: the total is more than one. *)
Theorem C104_more_refuted : exists data K lo g v, built_kde 1 data [1] Box ident None K /\ whole_points 1 data /\ (forall p, In p data -> lo <= p O)
  /\ kde_density_int K true 1 (Some [Some (Some lo, None)]) PNone = Ok g /\ is_tintN 1 g origin v /\ v = 5 / 4.
Proof. exact int_more_refuted. Qed.
Print Assumptions C104_more_refuted.

(** Resampling with reflection: a point becomes its own image, and counts twice. *)
Theorem C104_resample_refuted : exists (data : list pt) (refl : reflspec), whole_points 1 data /\ (forall p, In p data -> inside refl p = true)
  /\ drawn_from data None refl = (data, None) /\ exists p q, data = [p; q] /\ p O <> q O /\ exists p', drawn_from_int data None refl = ([p; q; p'], None) /\ p' O = p O.
Proof. exact drawn_refuted. Qed.
Print Assumptions C104_resample_refuted.

Example C104_example : whole_points 2 data2 /\ on_halves [Some (Some (- / 2), None); Some (None, Some 3)]
  /\ (exists K M, built_kde 2 data2 [1; 1; 1] Gaussian M None K) /\ built_kde 1 [pt1 3] [1] Gaussian ident None (kx 3 Gaussian) /\ whole_points 1 [pt1 3]
  /\ towards_zero (2 * (- / 4) - 3) (-3).
Proof.
  split.
  - intros p i [<-|[<-|[<-|[]]]] Hi; unfold q00, q10, q01; destruct i as [|[|i]]; try lia; cbn; (exists 0%Z; reflexivity) || (exists 1%Z; reflexivity).
  - split; [intros b loc [E|[E|[]]] Hl; injection E as <-; cbn in Hl; destruct Hl as [Hl|Hl]; try discriminate; injection Hl as <-; [exists (-1)%Z|exists 6%Z]; lra|].
    split; [destruct (data2_built Gaussian None) as [K [M [N [_ [HB _]]]]]; exists K, M; exact HB|]. split; [apply kx_built|]. split; [intros p i [<-|[]] _; exists 3%Z; reflexivity|].
    split; [exists (-3)%Z; reflexivity|]. rewrite !Rabs_left by lra. repeat split; lra.
Qed.


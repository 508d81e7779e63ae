(** C142: small changes of data, weights and evaluation points change the density little. *)
From Verif Require Import Base ModelLinAlg SpecLinAlg ModelKernels SpecKernels SpecIntegral ModelKDE SpecKDE SpecStable
  ProofKDE ProofTop2 ProofInt2 ProofStable.
Open Scope R_scope.
Notation length := List.length.

(** Every kernel has a highest value. *)
Theorem C142_peak : forall n d M, (1 <= n)%nat -> symmetric n M -> posdef n M -> exists v, peak_of n d M v /\ 0 < v.
Proof. exact peak_exists. Qed.
Print Assumptions C142_peak.

(** Data moved by at most [delta] and another evaluation point; the box kernel excepted. *)
Theorem C142_moved : forall n data data' ws d M K K' N (prob : bool) f f' v delta x y, (1 <= n)%nat -> d <> Box ->
  built_kde n data ws d M None K -> built_kde n data' ws d M None K' -> is_inverse n M N ->
  kde_density K prob n None PNone = Ok f -> kde_density K' prob n None PNone = Ok f' -> peak_of n d M v ->
  (forall p q, In (p, q) (combine data data') -> kernel_dist n N p q <= delta) -> Rabs (f x - f' y) <= 2 * (mass prob ws * v) * (kernel_dist n N x y + delta).
Proof. exact moved. Qed.
Print Assumptions C142_moved.

(** The box kernel: a datum moved by as little as you like changes the density by the full value. *)
Theorem C142_box_refuted : forall delta, 0 < delta -> exists K K' f f' v x, built_kde 1 [pt1 0] [1] Box ident None K /\ built_kde 1 [pt1 (- delta)] [1] Box ident None K'
  /\ kde_density K true 1 None PNone = Ok f /\ kde_density K' true 1 None PNone = Ok f' /\ peak_of 1 Box ident v /\ 0 < v /\ kernel_dist 1 ident (pt1 0) (pt1 (- delta)) = delta /\ f x - f' x = v.
Proof. exact box_jumps. Qed.
Print Assumptions C142_box_refuted.

(** One datum replaced by any other one, however far. *)
Theorem C142_replaced : forall n l p q r wl w wr d M K K' (prob : bool) f f' v, (1 <= n)%nat -> length wl = length l ->
  built_kde n (l ++ p :: r) (wl ++ w :: wr) d M None K -> built_kde n (l ++ q :: r) (wl ++ w :: wr) d M None K' ->
  kde_density K prob n None PNone = Ok f -> kde_density K' prob n None PNone = Ok f' -> peak_of n d M v ->
  forall x, Rabs (f x - f' x) <= mass prob (wl ++ w :: wr) * v * (w / lsum (wl ++ w :: wr)).
Proof. exact replaced. Qed.
Print Assumptions C142_replaced.

(** One datum left out. *)
Theorem C142_left_out : forall n l p r wl w wr d M K K' f f' v, (1 <= n)%nat -> length wl = length l ->
  built_kde n (l ++ p :: r) (wl ++ w :: wr) d M None K -> built_kde n (l ++ r) (wl ++ wr) d M None K' ->
  kde_density K true n None PNone = Ok f -> kde_density K' true n None PNone = Ok f' -> peak_of n d M v ->
  forall x, Rabs (f x - f' x) <= v * (w / lsum (wl ++ w :: wr)).
Proof. exact removed. Qed.
Print Assumptions C142_left_out.

(** Other weights. *)
Theorem C142_weights : forall n data ws vs d M K K' f f' v, (1 <= n)%nat -> built_kde n data ws d M None K -> built_kde n data vs d M None K' ->
  kde_density K true n None PNone = Ok f -> kde_density K' true n None PNone = Ok f' -> peak_of n d M v -> forall x, Rabs (f x - f' x) <= v * share_diff ws vs.
Proof. exact reweighted. Qed.
Print Assumptions C142_weights.

(** One datum moved by 1/4; a distant third datum left out. *)
Example C142_moved_ex : built_kde 1 [pt1 0] [1] Triweight ident None (kx 0 Triweight) /\ built_kde 1 [pt1 (1 / 4)] [1] Triweight ident None (kx (1 / 4) Triweight)
  /\ is_inverse 1 ident ident /\ (forall p q, In (p, q) (combine [pt1 0] [pt1 (1 / 4)]) -> kernel_dist 1 ident p q <= 1 / 4).
Proof.
  split; [apply kx_built|]. split; [apply kx_built|]. split; [apply ident_inverse|]. intros p q [E|[]]. injection E as <- <-. unfold kernel_dist.
  replace (quad 1 ident (psub (pt1 0) (pt1 (1 / 4)))) with (1 / 4 * (1 / 4)) by (unfold quad, psub, pt1, ident; cbn; field). rewrite sqrt_square by lra. lra.
Qed.
Example C142_left_out_ex : exists K K', built_kde 1 ([pt1 0] ++ pt1 9 :: [pt1 1]) ([1] ++ 1 :: [1]) Box ident None K
  /\ built_kde 1 ([pt1 0] ++ [pt1 1]) ([1] ++ [1]) Box ident None K' /\ 1 / lsum ([1] ++ 1 :: [1]) = 1 / 3.
Proof. destruct (three_built Box) as (K & K' & H1 & H2). exists K, K'. split; [exact H1|]. split; [exact H2|]. unfold lsum; cbn. field. Qed.

(** C147: symmetric data. *)
From Coq Require Import Permutation FunctionalExtensionality.
From Verif Require Import Base ModelLinAlg SpecLinAlg ModelKernels ModelKDE SpecKDE SpecLinear SpecReflected SpecCdfError SpecSymmetric ModelUtils SpecUtils ProofUtils2 ProofExamples ProofTop2 ProofTop3 ProofLinear ProofSymmetric.
Open Scope R_scope.
Notation length := List.length.

(** * C147 *)
(** A linear change of the parameters under which the weighted data are the same leaves the density the same. *)
Theorem C147_density : forall n g c data w ws b resc d neffa M K (prob : bool) f, (1 <= n)%nat -> linear_change n g c -> unchanged g data ws -> one_bandwidth b -> weights_given w data ws ->
  kde_init n data w b false resc d None neffa None = Ok K -> kd_kernel K = Some (mkKernel d n M) -> symmetric n M -> posdef n M -> kde_density K prob n None PNone = Ok f ->
  c = 1 /\ forall x, f (g x) = f x.
Proof. exact sym_density. Qed.
Print Assumptions C147_density.

(** Mirrors. *)
Theorem C147_mirror : forall n k v data w ws b resc d neffa M K (prob : bool) f, (k < n)%nat -> unchanged (mirrored k v) data ws -> one_bandwidth b -> weights_given w data ws ->
  kde_init n data w b false resc d None neffa None = Ok K -> kd_kernel K = Some (mkKernel d n M) -> symmetric n M -> posdef n M -> kde_density K prob n None PNone = Ok f ->
  forall x, f (mirrored k v x) = f x.
Proof. exact sym_mirror. Qed.
Print Assumptions C147_mirror.

(** In one dimension half of the probability is on each side. *)
Theorem C147_half : forall v data w ws b resc d neffa M K f, unchanged (mirrored 0 v) data ws -> one_bandwidth b -> weights_given w data ws ->
  kde_init 1 data w b false resc d None neffa None = Ok K -> kd_kernel K = Some (mkKernel d 1 M) -> symmetric 1 M -> posdef 1 M -> kde_density K true 1 None PNone = Ok f ->
  prob_upto f v (1 / 2).
Proof. exact sym_half. Qed.
Print Assumptions C147_half.

(** Quantiles of mirrored numbers are the mirrored quantiles at the opposite fractions. *)
Theorem C147_quantiles : forall sorter sorter' v values ws ps, sorts sorter -> sorts sorter' -> values <> [] -> length ws = length values -> all_pos ws -> fractions ps -> fair values ws ->
  exists qs, quantiles sorter values (Some ps) (Some ws) false = Ok qs /\ quantiles sorter' (map (flip v) values) (Some (map (fun p => 1 - p) ps)) (Some ws) false = Ok (map (flip v) qs).
Proof. exact quantiles_flip. Qed.
Print Assumptions C147_quantiles.

(** So quantiles of symmetric numbers are symmetric, and the median is the centre. *)
Theorem C147_median : forall sorter v values ws p, sorts sorter -> values <> [] -> length ws = length values -> all_pos ws -> 0 <= p <= 1 -> fair values ws -> symmetric_about v values ws ->
  exists q q', quantiles sorter values (Some [p; 1 - p]) (Some ws) false = Ok [q; q'] /\ q + q' = 2 * v /\ (p = 1 / 2 -> q = v).
Proof. exact quantiles_symmetric. Qed.
Print Assumptions C147_median.

(** The order of numbers with equal weights for equal numbers does not matter. *)
Theorem C147_order : forall sorter sorter' values ws values' ws' ps, sorts sorter -> sorts sorter' -> length ws = length values -> length ws' = length values' ->
  Permutation (combine values ws) (combine values' ws') -> fair values ws -> values <> [] -> fractions ps ->
  quantiles sorter values (Some ps) (Some ws) false = quantiles sorter' values' (Some ps) (Some ws') false.
Proof. exact quantiles_fair. Qed.
Print Assumptions C147_order.

(** Three points that are the same after exchanging the parameters. *)
Example C147_example : exists K M f, linear_change 2 (exchange 0 1) 1 /\ unchanged (exchange 0 1) data2 [1; 1; 1] /\ one_bandwidth BwNone /\ weights_given WNone data2 [1; 1; 1]
  /\ kde_init 2 data2 WNone BwNone false None Triweight None None None = Ok K /\ kd_kernel K = Some (mkKernel Triweight 2 M) /\ symmetric 2 M /\ posdef 2 M /\ kde_density K true 2 None PNone = Ok f.
Proof.
  destruct (data2_built Triweight None) as (K & M & N & HK & HB & _). destruct (density_plain_ex _ _ _ _ _ _ true HB) as (f & _ & Hf). exists K, M, (scaled true [1; 1; 1] f).
  destruct HB as (_ & HKK & HS & HP). split; [apply exchange_change; lia|]. split; [|split; [left; reflexivity|split; [left; split; reflexivity|repeat (split; [assumption|]); exact Hf]]].
  assert (E0 : exchange 0 1 q00 = q00) by (apply functional_extensionality; intros [|[|i]]; reflexivity).
  assert (E1 : exchange 0 1 q10 = q01) by (apply functional_extensionality; intros [|[|i]]; reflexivity).
  assert (E2 : exchange 0 1 q01 = q10) by (apply functional_extensionality; intros [|[|i]]; reflexivity).
  unfold unchanged, data2. cbn [map combine]. rewrite E0, E1, E2. apply perm_skip, perm_swap.
Qed.

(** Two points in one dimension. *)
Example C147_two : exists K M f, unchanged (mirrored 0 (1 / 2)) [q00; q10] [1; 1] /\ weights_given WNone [q00; q10] [1; 1]
  /\ kde_init 1 [q00; q10] WNone BwNone false None Gaussian None None None = Ok K /\ kd_kernel K = Some (mkKernel Gaussian 1 M) /\ symmetric 1 M /\ posdef 1 M /\ kde_density K true 1 None PNone = Ok f.
Proof.
  assert (HG : weights_given WNone [q00; q10] [1; 1]) by (left; split; reflexivity).
  destruct (default_ok 1 [q00; q10] WNone [1; 1] Gaussian None) as (K & M & N & HK & HKK & HS & HP & _); try assumption; [discriminate|reflexivity|intros v [<-|[<-|[]]]; lra| | |].
  - unfold nnz. cbn. destruct (Reqb_spec 1 0); [lra|]. cbn. lia.
  - intros (v & c & (i & Hi & Hv) & H). assert (i = 0)%nat by lia. subst i. pose proof (H q00 1 (or_introl eq_refl) ltac:(lra)) as A. pose proof (H q10 1 (or_intror (or_introl eq_refl)) ltac:(lra)) as B. unfold q00, q10 in A, B. cbn in A, B. apply Hv. lra.
  - assert (HB : built_kde 1 [q00; q10] [1; 1] Gaussian M None K) by (split; [exists WNone, BwNone, false, None, None, None; split; assumption|split; [exact HKK|split; assumption]]).
    destruct (density_plain_ex _ _ _ _ _ _ true HB) as (f & _ & Hf). exists K, M, (scaled true [1; 1] f). split; [|repeat (split; [assumption|]); exact Hf].
    assert (E0 : mirrored 0 (1 / 2) q00 = q10) by (apply functional_extensionality; intros [|i]; unfold mirrored, q00, q10; cbn; lra).
    assert (E1 : mirrored 0 (1 / 2) q10 = q00) by (apply functional_extensionality; intros [|i]; unfold mirrored, q00, q10; cbn; lra).
    unfold unchanged. cbn [map combine]. rewrite E0, E1. apply perm_swap.
Qed.

(** Numbers with ties and weights. *)
Example C147_numbers : fair [1; 2; 2; 3] [4; 5; 5; 4] /\ symmetric_about 2 [1; 2; 2; 3] [4; 5; 5; 4] /\ all_pos [4; 5; 5; 4] /\ fractions [1 / 4; 1].
Proof.
  split; [|split; [|split]].
  - intros p q Hp Hq. cbn in Hp, Hq. destruct Hp as [<-|[<-|[<-|[<-|[]]]]]; destruct Hq as [<-|[<-|[<-|[<-|[]]]]]; cbn [fst]; intros E; try reflexivity; lra.
  - unfold symmetric_about, flip. cbn [map combine]. replace (2 * 2 - 1) with 3 by ring. replace (2 * 2 - 2) with 2 by ring. replace (2 * 2 - 3) with 1 by ring.
    apply (Permutation_rev [(3, 4); (2, 5); (2, 5); (1, 4)]).
  - intros x Hx. cbn in Hx. repeat (destruct Hx as [<-|Hx]; [lra|]). contradiction.
  - intros x Hx. cbn in Hx. repeat (destruct Hx as [<-|Hx]; [lra|]). contradiction.
Qed.

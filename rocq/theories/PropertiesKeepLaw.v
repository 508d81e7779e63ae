(** C133: the law of the samples when parameters are kept. *)
From Coquelicot Require Import Coquelicot.
From Verif Require Import Base ModelLinAlg SpecLinAlg SpecIntegral ModelKernels ModelKDE SpecKDE SpecMoments ModelExtrema ModelReflect ModelResample SpecResample ProofResample SpecLaw SpecKeepLaw ProofKeepLaw ProofExamples.
Open Scope R_scope.
Notation length := List.length.

(** * C133 *)
(** Gaussian kernel: the kept parameters are those of the chosen point; every quantity of the other parameters has the
    mean it has under the density; given the point, every quantity has the mean it has under the density of this point
    alone with the kept parameters replaced by those of the point; mean and covariance. *)
Theorem C133_keep_law : forall n data ws M K keep, (1 <= n)%nat -> built_kde n data ws Gaussian M None K -> (forall i, kept n keep i -> (i < n)%nat) ->
  exists f (S : nat -> pt -> pt), kde_density K true n None PNone = Ok f
  /\ (forall size chunk arg rn ix, clear_arg K arg -> valid_choice data ws (size_of data size) (ix O) ->
        exists ss, snd (kde_resample K size keep chunk arg rn ix) = Ok ss /\ length ss = size_of data size
          /\ forall j i, (j < size_of data size)%nat -> nth j ss pt0 i = S (ix O j) (r_norm (rn O j)) i)
  /\ (forall k z, kept_of n keep (nth k data pt0) (S k z))
  /\ (forall g means base, of_others n keep g ->
       (forall k, (k < length data)%nat -> is_tintL (seq 0 n) (fun z => g (S k z) * std_normal n z) base (means k)) ->
       is_tintL (seq 0 n) (fun x => g x * f x) base (weighted ws means))
  /\ (forall g k mean base K1 (R1 : pt -> pt), of_params n g -> (k < length data)%nat -> built_kde n [nth k data pt0] [1] Gaussian M None K1 ->
       (forall x, replaced n keep (nth k data pt0) x (R1 x)) ->
       is_tintL (seq 0 n) (fun z => g (S k z) * std_normal n z) base mean ->
       exists f1, kde_density K1 true n None PNone = Ok f1 /\ is_tintL (seq 0 n) (fun x => g (R1 x) * f1 x) base mean)
  /\ (forall k base i, (i < n)%nat -> is_tintL (seq 0 n) (fun z => S k z i * std_normal n z) base (nth k data pt0 i))
  /\ (forall k base i j (m : pt), (i < n)%nat -> (j < n)%nat -> ~ kept n keep i -> ~ kept n keep j ->
        is_tintL (seq 0 n) (fun z => (S k z i - m i) * (S k z j - m j) * std_normal n z) base
          ((nth k data pt0 i - m i) * (nth k data pt0 j - m j) + M i j))
  /\ (forall k base i j (m : pt), (i < n)%nat -> (j < n)%nat -> kept n keep i \/ kept n keep j ->
        is_tintL (seq 0 n) (fun z => (S k z i - m i) * (S k z j - m j) * std_normal n z) base
          ((nth k data pt0 i - m i) * (nth k data pt0 j - m j))).
Proof. exact keep_law. Qed.
Print Assumptions C133_keep_law.

(** The spread of a kept parameter is smaller than that of the density by the entry of the kernel matrix. *)
Theorem C133_narrower : forall n data ws M K keep i, (1 <= n)%nat -> built_kde n data ws Gaussian M None K -> (forall q, kept n keep q -> (q < n)%nat) -> kept n keep i ->
  exists f (S : nat -> pt -> pt) means, kde_density K true n None PNone = Ok f
  /\ (forall size chunk arg rn ix, clear_arg K arg -> valid_choice data ws (size_of data size) (ix O) ->
        exists ss, snd (kde_resample K size keep chunk arg rn ix) = Ok ss /\ length ss = size_of data size
          /\ forall j i, (j < size_of data size)%nat -> nth j ss pt0 i = S (ix O j) (r_norm (rn O j)) i)
  /\ forall c base, (forall k, is_tintL (seq 0 n) (fun z => (S k z i - c) * (S k z i - c) * std_normal n z) base (means c k))
       /\ is_tintL (seq 0 n) (fun x => (x i - c) * (x i - c) * f x) base (weighted ws (means c) + M i i) /\ weighted ws (means c) < weighted ws (means c) + M i i.
Proof. exact keep_narrower. Qed.
Print Assumptions C133_narrower.

Example C133_example : exists K M, built_kde 2 data2 [1; 1; 1] Gaussian M None K /\ clear_arg K RNone /\ (forall i, kept 2 (KeepList [1%nat]) i -> (i < 2)%nat)
  /\ valid_choice data2 [1; 1; 1] (size_of data2 (Some 5%nat)) (fun j => Nat.modulo j 3)
  /\ of_others 2 (KeepList [1%nat]) (fun x => x 0%nat) /\ ~ of_others 2 (KeepList [1%nat]) (fun x => x 1%nat)
  /\ (exists K1, built_kde 2 [nth 1 data2 pt0] [1] Gaussian M None K1)
  /\ forall x, replaced 2 (KeepList [1%nat]) (nth 1 data2 pt0) x (fun i => if Nat.eqb i 1 then nth 1 data2 pt0 1%nat else x i).
Proof. exact keep_law_example. Qed.

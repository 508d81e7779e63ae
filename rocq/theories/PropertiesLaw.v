(** Property C128: the samples follow the density. *)
From Coquelicot Require Import Coquelicot.
From Verif Require Import Base ModelLinAlg SpecLinAlg SpecIntegral ModelKernels ModelKDE SpecKDE SpecMoments ModelExtrema ModelReflect ModelResample SpecResample ProofResample SpecNoise SpecLaw ProofLaw ProofLaw2 ProofExamples ProofTop3.
Open Scope R_scope.
Notation length := List.length.

(** * C128 *)
(** Gaussian kernel, any number of parameters: the mean of any quantity over the samples, the data point chosen
    by its weight and the numbers of numpy.random.normal being independent standard normal ones, is its mean
    under the density; the mean and covariance of the samples. *)
Theorem C128_gaussian : forall n data ws M K, (1 <= n)%nat -> built_kde n data ws Gaussian M None K ->
  exists f (S : nat -> pt -> pt), kde_density K true n None PNone = Ok f
  /\ (forall size chunk arg rn ix, clear_arg K arg -> valid_choice data ws (size_of data size) (ix O) ->
        exists ss, snd (kde_resample K size KeepNone chunk arg rn ix) = Ok ss /\ length ss = size_of data size
          /\ forall j i, (j < size_of data size)%nat -> nth j ss pt0 i = S (ix O j) (r_norm (rn O j)) i)
  /\ (forall g means base, of_params n g ->
       (forall k, (k < length data)%nat -> is_tintL (seq 0 n) (fun z => g (S k z) * std_normal n z) base (means k)) ->
       is_tintL (seq 0 n) (fun x => g x * f x) base (weighted ws means))
  /\ (forall k base i, (i < n)%nat -> is_tintL (seq 0 n) (fun z => S k z i * std_normal n z) base (nth k data pt0 i))
  /\ (forall k base i j (m : pt), (i < n)%nat -> (j < n)%nat ->
        is_tintL (seq 0 n) (fun z => (S k z i - m i) * (S k z j - m j) * std_normal n z) base
          ((nth k data pt0 i - m i) * (nth k data pt0 j - m j) + M i j)).
Proof. exact gaussian_samples. Qed.
Print Assumptions C128_gaussian.

(** Box kernel, one parameter: the same for every continuous function, the numbers being uniform between -1 and 1. *)
Theorem C128_box : forall data ws M K, built_kde 1 data ws Box M None K ->
  exists f (S : nat -> rnd -> R), kde_density K true 1 None PNone = Ok f
  /\ (forall size chunk arg rn ix, clear_arg K arg -> valid_choice data ws (size_of data size) (ix O) ->
        exists ss, snd (kde_resample K size KeepNone chunk arg rn ix) = Ok ss /\ length ss = size_of data size
          /\ forall j, (j < size_of data size)%nat -> nth j ss pt0 O = S (ix O j) (rn O j))
  /\ forall (g : R -> R) r, (forall x, continuous g x) ->
       exists means, (forall k, (k < length data)%nat -> uniform_mean 1 (-1) 1 (fun u => g (S k (with_sym r 0 u))) (means k))
         /\ is_tint (fun t => g t * f (pt1 t)) (weighted ws means).
Proof. exact box_samples. Qed.
Print Assumptions C128_box.

(** Parabola kernel, one parameter: three such numbers. *)
Theorem C128_parabola : forall data ws M K, built_kde 1 data ws Parabola M None K ->
  exists f (S : nat -> rnd -> R), kde_density K true 1 None PNone = Ok f
  /\ (forall size chunk arg rn ix, clear_arg K arg -> valid_choice data ws (size_of data size) (ix O) ->
        exists ss, snd (kde_resample K size KeepNone chunk arg rn ix) = Ok ss /\ length ss = size_of data size
          /\ forall j, (j < size_of data size)%nat -> nth j ss pt0 O = S (ix O j) (rn O j))
  /\ forall (g : R -> R) r, (forall x, continuous g x) ->
       exists means, (forall k, (k < length data)%nat -> uniform_mean 3 (-1) 1 (fun u => g (S k (with_sym r 0 u))) (means k))
         /\ is_tint (fun t => g t * f (pt1 t)) (weighted ws means).
Proof. exact parabola_samples. Qed.
Print Assumptions C128_parabola.

(** Triweight kernel, one parameter: up to the spacing of the table of the inverse distribution function. *)
Theorem C128_triweight : forall data ws M K, built_kde 1 data ws Triweight M None K ->
  exists f (S : nat -> rnd -> R), kde_density K true 1 None PNone = Ok f
  /\ (forall size chunk arg rn ix, clear_arg K arg -> valid_choice data ws (size_of data size) (ix O) ->
        exists ss, snd (kde_resample K size KeepNone chunk arg rn ix) = Ok ss /\ length ss = size_of data size
          /\ forall j, (j < size_of data size)%nat -> nth j ss pt0 O = S (ix O j) (rn O j))
  /\ forall (g : R -> R) L r, (forall x, continuous g x) -> (forall x y, Rabs (g x - g y) <= L * Rabs (x - y)) -> r_norm r O <> 0 ->
       exists a b m, (forall k, (k < length data)%nat -> uniform_mean 1 0 1 (fun u => g (S k (with_unif r u))) (a k)
           /\ uniform_mean 1 0 1 (fun u => g (S k (with_unif (flipped r) u))) (b k))
         /\ is_tint (fun t => g t * f (pt1 t)) m /\ Rabs (weighted ws (fun k => (a k + b k) / 2) - m) <= sqrt (M O O) * L / 999.
Proof. exact triweight_samples. Qed.
Print Assumptions C128_triweight.

(** Parabola kernel, several parameters: the samples of the first parameter are spread more widely than the density. *)
Theorem C128_parabola_several : forall n data ws M K, (2 <= n)%nat -> built_kde n data ws Parabola M None K ->
  exists f (S : nat -> rnd -> R), kde_density K true n None PNone = Ok f
  /\ (forall size chunk arg rn ix, clear_arg K arg -> valid_choice data ws (size_of data size) (ix O) ->
        exists ss, snd (kde_resample K size KeepNone chunk arg rn ix) = Ok ss /\ length ss = size_of data size
          /\ forall j, (j < size_of data size)%nat -> nth j ss pt0 O = S (ix O j) (rn O j))
  /\ (forall c r k, uniform_mean 3 (-1) 1 (fun u => (S k (with_sym r 0 u) - c) * (S k (with_sym r 0 u) - c)) ((nth k data pt0 O - c) * (nth k data pt0 O - c) + M O O / 5))
  /\ (forall c base, is_tintN n (fun x => (x O - c) * (x O - c) * f x) base (weighted ws (fun k => (nth k data pt0 O - c) * (nth k data pt0 O - c) + M O O / (INR n + 4))))
  /\ forall v, weighted ws (fun k => v k + M O O / (INR n + 4)) < weighted ws (fun k => v k + M O O / 5).
Proof. exact parabola_samples_several. Qed.
Print Assumptions C128_parabola_several.

(** So it is false that the samples of every kernel follow the density. *)
Theorem C128_several_refuted : exists n data ws M K f (S : nat -> rnd -> R) v means, built_kde n data ws Parabola M None K
  /\ kde_density K true n None PNone = Ok f
  /\ (forall size chunk arg rn ix, clear_arg K arg -> valid_choice data ws (size_of data size) (ix O) ->
        exists ss, snd (kde_resample K size KeepNone chunk arg rn ix) = Ok ss /\ length ss = size_of data size
          /\ forall j, (j < size_of data size)%nat -> nth j ss pt0 O = S (ix O j) (rn O j))
  /\ (forall k r, uniform_mean 3 (-1) 1 (fun u => (S k (with_sym r 0 u) - 0) * (S k (with_sym r 0 u) - 0)) (means k))
  /\ (forall base, is_tintN n (fun x => (x O - 0) * (x O - 0) * f x) base v) /\ v <> weighted ws means.
Proof. exact several_samples_refuted. Qed.
Print Assumptions C128_several_refuted.

Example C128_example : exists K M, built_kde 2 data2 [1; 1; 1] Gaussian M None K /\ clear_arg K RNone /\ valid_choice data2 [1; 1; 1] (size_of data2 (Some 5%nat)) (fun j => Nat.modulo j 3)
  /\ of_params 2 (fun x => x 0%nat * x 1%nat) /\ ~ of_params 2 (fun x => x 2%nat) /\ weighted [1; 3] (fun k => INR k) = 3 / 4.
Proof. exact law_example. Qed.
Print Assumptions C128_example.

(** Property C118: parameters counted from the end, and lists of booleans. *)
From Coq Require Import ZArith.
From Verif Require Import Base ModelLinAlg SpecLinAlg ModelKernels ModelKDE SpecKDE ModelReflect ModelResample ModelUtils ModelNd ModelKeep SpecKeep ProofKDE ProofTop2 ProofKeep.
Open Scope R_scope.
Notation length := List.length.

(** * C118 *)
(** keep as one number, counted from the end if negative. *)
Theorem C118_keep_number : forall ok n data w size chunk arg rn ix z k, counts n z k ->
  kernel_resample_kf ok n data w size (KfOne z) chunk arg rn ix = kernel_resample ok n data w size (KeepInt k) chunk arg rn ix.
Proof. exact keep_number. Qed.
Print Assumptions C118_keep_number.

(** keep as several such numbers, with and without boundaries. *)
Theorem C118_keep_numbers : forall ok n data w size chunk arg rn ix zs ks, Forall2 (counts n) zs ks ->
  kernel_resample_kf ok n data w size (KfNums zs) chunk arg rn ix = kernel_resample ok n data w size (KeepList ks) chunk arg rn ix.
Proof. exact keep_numbers. Qed.
Print Assumptions C118_keep_numbers.

(** None, True and False. *)
Theorem C118_keep_plain : forall ok n data w size chunk arg rn ix,
  kernel_resample_kf ok n data w size KfNone chunk arg rn ix = kernel_resample ok n data w size KeepNone chunk arg rn ix
  /\ (forall b, kernel_resample_kf ok n data w size (KfBool b) chunk arg rn ix = kernel_resample ok n data w size (KeepBool b) chunk arg rn ix).
Proof. exact keep_plain. Qed.
Print Assumptions C118_keep_plain.

(** A number out of range. *)
Theorem C118_keep_bad : forall k n data w size chunk arg rn ix zs s, snd (check_reflect n data arg) = Ok None ->
  snd (kernel_resample (Some k) n data w size KeepNone chunk arg rn ix) = Ok s -> (exists z, In z zs /\ ~ exists j, counts n z j) ->
  snd (kernel_resample_kf (Some k) n data w size (KfNums zs) chunk arg rn ix) = Err IndexError.
Proof. exact keep_bad. Qed.
Print Assumptions C118_keep_bad.

(** With boundaries too, unless a parameter before it is refused for having boundaries. *)
Theorem C118_keep_bad_reflect : forall k n data w size chunk arg rn ix refl zs ks z rest, snd (check_reflect n data arg) = Ok (Some refl) ->
  Forall2 (counts n) zs ks -> (forall q, In q ks -> nth q refl None = None) -> (~ exists j, counts n z j) ->
  snd (kernel_resample_kf (Some k) n data w size (KfNums (zs ++ z :: rest)) chunk arg rn ix) = Err IndexError.
Proof. exact keep_bad_reflect. Qed.
Print Assumptions C118_keep_bad_reflect.

(** Booleans together with boundaries are refused. *)
Theorem C118_keep_mask_reflect : forall k n data w size chunk arg rn ix refl b l, snd (check_reflect n data arg) = Ok (Some refl) ->
  snd (kernel_resample_kf (Some k) n data w size (KfMask (b :: l)) chunk arg rn ix) = Err TypeError.
Proof. exact keep_mask_reflect. Qed.
Print Assumptions C118_keep_mask_reflect.
Example C118_keep_bad_reflect_ex : snd (check_reflect 2 [origin] (RSeq KList [EAtom VNone; ESeq KList [VNum (1 / 2); VNone]])) = Ok (Some [None; Some (Some (1 / 2), None)])
  /\ Forall2 (counts 2) [0%Z] [O] /\ (forall q, In q [O] -> nth q [None; Some (Some (1 / 2), @None R)] None = None) /\ ~ (exists j, counts 2 2 j).
Proof.
  split; [|split; [constructor; [split; [lia|left; reflexivity]|constructor]|split; [intros q [<-|[]]; reflexivity|intros [k [H [E|E]]]; lia]]].
  reflexivity.
Qed.

(** A list of booleans: one True keeps every parameter of every sample; without True nothing is kept. *)
Theorem C118_keep_mask : forall k n data w size chunk arg rn ix l s, snd (check_reflect n data arg) = Ok None ->
  snd (kernel_resample (Some k) n data w size KeepNone chunk arg rn ix) = Ok s ->
  (In true l -> exists s', snd (kernel_resample_kf (Some k) n data w size (KfMask l) chunk arg rn ix) = Ok s'
    /\ length s' = length s /\ forall j i, (j < length s')%nat -> nth j s' pt0 i = nth (ix O j) data pt0 i)
  /\ (~ In true l -> snd (kernel_resample_kf (Some k) n data w size (KfMask l) chunk arg rn ix) = Ok s).
Proof. exact keep_mask. Qed.
Print Assumptions C118_keep_mask.

(** So [True, False] does not select the first parameter. *)
Theorem C118_keep_mask_refuted : exists (k : kernel) n data ix rn s s', snd (kernel_resample_kf (Some k) n data None (Some 1%nat) (KfMask [true; false]) 1 RNone rn ix) = Ok s
  /\ snd (kernel_resample_kf (Some k) n data None (Some 1%nat) (KfOne 0) 1 RNone rn ix) = Ok s' /\ n = 2%nat /\ nth 0 s pt0 1%nat <> nth 0 s' pt0 1%nat.
Proof. exact keep_mask_refuted. Qed.
Print Assumptions C118_keep_mask_refuted.

(** Several parameters of the density. *)
Theorem C118_params_numbers : forall K kern (prob : bool) pdim refl zs ks, (2 <= kd_ndim K)%nat -> kd_kernel K = Some kern -> k_ndim kern = kd_ndim K ->
  (forall r, kd_reflect K = Some r -> length r = kd_ndim K) -> Forall2 (counts (kd_ndim K)) zs ks ->
  kde_density_pf K prob pdim refl (PfNums zs) = kde_density K prob pdim refl (PList ks).
Proof. exact params_numbers. Qed.
Print Assumptions C118_params_numbers.

(** One parameter of the density. *)
Theorem C118_params_number : forall K kern (prob : bool) pdim refl z k, (2 <= kd_ndim K)%nat -> kd_kernel K = Some kern -> k_ndim kern = kd_ndim K ->
  (forall r, kd_reflect K = Some r -> length r = kd_ndim K) -> counts (kd_ndim K) z k ->
  kde_density_pf K prob pdim refl (PfOne z) = kde_density K prob pdim refl (PInt k).
Proof. exact params_number. Qed.
Print Assumptions C118_params_number.

(** A parameter out of range. *)
Theorem C118_params_bad : forall K (prob : bool) pdim refl zs, (2 <= kd_ndim K)%nat ->
  (forall r, kd_reflect K = Some r -> length r = kd_ndim K) -> (exists z, In z zs /\ ~ exists j, counts (kd_ndim K) z j) ->
  kde_density_pf K prob pdim refl (PfNums zs) = Err IndexError
  /\ (forall z, ~ (exists j, counts (kd_ndim K) z j) -> kde_density_pf K prob pdim refl (PfOne z) = Err IndexError).
Proof. exact params_bad. Qed.
Print Assumptions C118_params_bad.

(** One-dimensional data: only the number 0. *)
Theorem C118_params_single : forall K (prob : bool) pdim refl z, kd_ndim K = 1%nat ->
  kde_density_pf K prob pdim refl (PfOne z) = if Z.eqb z 0 then kde_density K prob pdim refl PNone else Err ValueError.
Proof. exact params_single. Qed.
Print Assumptions C118_params_single.

Example C118_example : Forall2 (counts 3) [-1; 0]%Z [2; 0]%nat /\ ~ (exists k, counts 2 (-3)%Z k)
  /\ (2 <= kd_ndim (k12 Gaussian 2 None))%nat /\ kd_kernel (k12 Gaussian 2 None) = Some (mkKernel Gaussian 2 ident) /\ (forall r, kd_reflect (k12 Gaussian 2 None) = Some r -> length r = 2%nat).
Proof.
  split; [|split; [|split; [|split]]].
  - constructor; [split; [lia|right; reflexivity]|]. constructor; [split; [lia|left; reflexivity]|constructor].
  - intros [k [H [E|E]]]; lia.
  - cbn. lia.
  - reflexivity.
  - discriminate.
Qed.


(** Vocabulary for the kernel lookup and the shapes of results. *)
From Coq Require Import String Ascii.
From Verif Require Import Base ModelKernels ModelKDE ModelNd ModelApi.
Open Scope R_scope.

(** Python's white space among the characters up to code 255: tab, line feed, vertical tab, form feed, carriage return,
    the four separators, blank, next line, no-break space. *)
Definition white (c : ascii) : Prop :=
  In (nat_of_ascii c) [9; 10; 11; 12; 13; 28; 29; 30; 31; 32; 133; 160]%nat.
(** Equal, or the capital of a letter a-z. *)
Definition same_letter (c d : ascii) : Prop :=
  c = d \/ ((97 <= nat_of_ascii d <= 122)%nat /\ nat_of_ascii c = (nat_of_ascii d - 32)%nat).
(** [s] is [name] up to letter case and surrounding white space. *)
Definition spells (s name : string) : Prop :=
  exists pre mid post, list_ascii_of_string s = pre ++ mid ++ post
    /\ Forall white pre /\ Forall white post /\ Forall2 same_letter mid (list_ascii_of_string name).
(** The names and their kernels. *)
Inductive kernel_name : string -> dist -> Prop :=
| kn_gaussian : kernel_name "gaussian" Gaussian
| kn_box : kernel_name "box" Box
| kn_parabola : kernel_name "parabola" Parabola
| kn_epanechnikov : kernel_name "epanechnikov" Parabola
| kn_triweight : kernel_name "triweight" Triweight.

(** The shape [(m,)] and the dimensionless shape of a single value. *)
Definition vector_of (m : nat) (v : nat -> R) (a : nda) : Prop :=
  shp a = [m] /\ forall j, (j < m)%nat -> at_ a [j] = v j.
Definition single_value (v : R) (a : nda) : Prop := shp a = [] /\ at_ a [] = v.

(** The same call without the names that KDE.__init__ does not know. *)
Definition known_only (kw : kde_kw) : kde_kw :=
  mkKw (kw_bw kw) (kw_kernel kw) (kw_cov kw) (kw_neff kw) (kw_diag kw) (kw_rescale kw) [].

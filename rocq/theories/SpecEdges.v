(** Vocabulary for C144: what a request for points means. *)
From Coq Require Import ZArith.
From Verif Require Import Base ModelLinAlg ModelKernels ModelKDE ModelUtils SpecUtils ModelEdges.
Open Scope R_scope.
Notation length := List.length.

(** The given numbers. *)
Definition numbers (g : list (option R)) (l : list R) : Prop := g = map Some l.
(** [k] bins of equal width from [lo] to [hi]; no bin: the point [lo]. *)
Definition equal_bins (k : nat) (lo hi : R) (g : list (option R)) : Prop :=
  exists l, numbers g l /\ length l = S k /\ nth 0 l 0 = lo /\ forall i, (i < k)%nat -> nth (S i) l 0 - nth i l 0 = (hi - lo) / INR k.
(** What one entry asks for, in a dimension with range [lo] to [hi]: the answer, or an error. *)
Inductive asks (lo hi : R) : eelem -> res (list (option R)) -> Prop :=
| asks_auto k g : (3 <= k <= 200)%nat -> equal_bins k lo hi g -> asks lo hi ENone (Ok g)
| asks_bins k g : equal_bins k lo hi g -> asks lo hi (EInt (Z.of_nat k)) (Ok g)
| asks_none : asks lo hi (EInt (-1)) (Ok [])
| asks_negative z : (z < -1)%Z -> asks lo hi (EInt z) (Err ValueError)
| asks_fraction r : asks lo hi (EFlt r) (Err TypeError)
| asks_given l : asks lo hi (EVec l) (Ok l)
| asks_nested : asks lo hi ENest (Err ValueError).
(** What the whole argument says for the [i]-th of [n] dimensions; None: it does not fit. *)
Definition flat (l : list eelem) : Prop := forall e, In e l -> e = ENone \/ (exists z, e = EInt z) \/ (exists r, e = EFlt r).
Definition given_values (l : list eelem) (v : list (option R)) : Prop :=
  Forall2 (fun e x => match e with EInt z => x = Some (IZR z) | EFlt r => x = Some r | _ => x = None end) l v.
Inductive says (n : nat) : eraw -> nat -> option eelem -> Prop :=
| says_none i : says n ErNone i (Some ENone)
| says_int z i : says n (ErInt z) i (Some (EInt z))
| says_flt r i : says n (ErFlt r) i (Some (EFlt r))
| says_each l i e : length l = n -> nth_error l i = Some e -> says n (ErSeq l) i (Some e)
| says_common l v i : length l <> n -> flat l -> given_values l v -> says n (ErSeq l) i (Some (EVec v))
| says_wrong l i : length l <> n -> ~ flat l -> says n (ErSeq l) i None.

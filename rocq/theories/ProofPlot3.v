(** Proofs about the outline of histograms, padding, masks and limits. *)
From Coq Require Import Permutation ZArith.
From Verif Require Import Base ModelLinAlg ModelKernels ModelKDE ModelInterp ModelResample ModelUtils ModelNd ModelGrid ModelSample
  SpecUtils SpecNd ModelPlot SpecPlot ProofInterp ProofUtils ProofUtils2 ProofUtils4 ProofNd ProofSample ProofPlot.
Open Scope R_scope.
Notation length := List.length.

(* ------------------------------------------------------------ blocks *)
Lemma flat_length {A B} (F : A -> list B) s L : (forall b, length (F b) = s) -> length (flat_map F L) = (s * length L)%nat.
Proof. intros H. induction L as [|b L IH]; cbn; [lia|]. rewrite app_length, H, IH. lia. Qed.
Lemma flat_nth {A B} (F : A -> list B) s L i k d db : (forall b, length (F b) = s) -> (i < length L)%nat -> (k < s)%nat ->
  nth (s * i + k) (flat_map F L) d = nth k (F (nth i L db)) d.
Proof.
  intros H. revert i. induction L as [|b L IH]; intros i Hi Hk; [cbn in Hi; lia|]. cbn [flat_map]. destruct i as [|i].
  - rewrite app_nth1 by (rewrite H; lia). f_equal. lia.
  - rewrite app_nth2 by (rewrite H; nia). rewrite H. replace (s * S i + k - s)%nat with (s * i + k)%nat by nia. apply IH; [cbn in Hi; lia|exact Hk].
Qed.
Lemma combine_app' {A B} (a b : list A) (c d : list B) : length a = length c -> combine (a ++ b) (c ++ d) = combine a c ++ combine b d.
Proof. revert c. induction a as [|x a IH]; intros [|y c] H; try discriminate H; [reflexivity|]. cbn. rewrite IH by (injection H; auto). reflexivity. Qed.
Lemma mask_where_flat {A} test (Fy Fz : A -> list cell) L : (forall b, length (Fy b) = length (Fz b)) ->
  mask_where test (flat_map Fy L) (flat_map Fz L) = flat_map (fun b => mask_where test (Fy b) (Fz b)) L.
Proof.
  intros H. induction L as [|b L IH]; [reflexivity|]. cbn [flat_map]. unfold mask_where in *. rewrite combine_app' by apply H. rewrite map_app, IH. reflexivity.
Qed.
Lemma map_flat {A B C} (g : B -> C) (F : A -> list B) L : map g (flat_map F L) = flat_map (fun b => map g (F b)) L.
Proof. induction L as [|b L IH]; [reflexivity|]. cbn. rewrite map_app, IH. reflexivity. Qed.
Lemma flat_ext {A B} (F G : A -> list B) L : (forall b, F b = G b) -> flat_map F L = flat_map G L.
Proof. intros H. induction L as [|b L IH]; [reflexivity|]. cbn. rewrite H, IH. reflexivity. Qed.

(** A bin: its edges and value. *)
Notation bin3 := (R * R * R)%type.
Fixpoint bins_of (edges hist : list R) : list bin3 :=
  match edges, hist with
  | a :: ((b :: _) as r), h :: t => (a, b, h) :: bins_of r t
  | _, _ => []
  end.
Lemma bins_cons a b r h t : bins_of (a :: b :: r) (h :: t) = (a, b, h) :: bins_of (b :: r) t.
Proof. reflexivity. Qed.
Lemma bins_length edges hist : length edges = S (length hist) -> length (bins_of edges hist) = length hist.
Proof.
  revert edges. induction hist as [|h t IH]; intros [|a [|b r]] H; cbn in H; try lia; [reflexivity|]. rewrite bins_cons. cbn [length]. rewrite IH; [reflexivity|cbn; lia].
Qed.
Lemma bins_nth edges hist i : length edges = S (length hist) -> (i < length hist)%nat ->
  nth i (bins_of edges hist) (0, 0, 0) = (vget edges i, vget edges (S i), vget hist i).
Proof.
  revert edges i. induction hist as [|h t IH]; intros [|a [|b r]] i H Hi; cbn in H, Hi; try lia. destruct i as [|i]; [reflexivity|].
  rewrite bins_cons. cbn [nth]. rewrite (IH (b :: r) i) by (cbn; lia). reflexivity.
Qed.
Lemma step_x_bins edges hist : length edges = S (length hist) -> step_x edges = flat_map (fun b : bin3 => [Fin (fst (fst b)); Fin (snd (fst b))]) (bins_of edges hist).
Proof.
  revert edges. induction hist as [|h t IH]; intros [|a [|b r]] H; cbn in H; try lia; [reflexivity|].
  rewrite bins_cons. cbn [flat_map fst snd app]. rewrite <- (IH (b :: r)) by (cbn; lia). reflexivity.
Qed.
Lemma step_y_bins edges hist : length edges = S (length hist) -> step_y hist = flat_map (fun b : bin3 => [Fin (snd b); Fin (snd b)]) (bins_of edges hist).
Proof.
  revert edges. induction hist as [|h t IH]; intros [|a [|b r]] H; cbn in H; try lia; [reflexivity|].
  rewrite bins_cons. cbn [flat_map fst snd app]. rewrite <- (IH (b :: r)) by (cbn; lia). reflexivity.
Qed.
Lemma separate_flat {A} (f g : A -> flt) L : separate (flat_map (fun b => [f b; g b]) L) = flat_map (fun b => [f b; g b; NaN]) L.
Proof. induction L as [|b L IH]; [reflexivity|]. cbn. rewrite IH. reflexivity. Qed.

(** The cells of one bin: [v] the value shown, [mx], [my] whether hidden. *)
Definition block (joints : bool) (u v : cell) : list cell := if joints then [u; v] else [u; v; plain NaN].
Lemma block_length j u v : length (block j u v) = if j then 2%nat else 3%nat.
Proof. destruct j; reflexivity. Qed.
Lemma mask_block test j a b u v : test NaN = false ->
  mask_where test (block j a b) (block j u v)
  = block j (mkCell (c_val u) (orb (c_mask u) (andb (negb (c_mask a)) (test (c_val a))))) (mkCell (c_val v) (orb (c_mask v) (andb (negb (c_mask b)) (test (c_val b))))).
Proof. intros H. destruct j; cbn; rewrite ?H; reflexivity. Qed.
Lemma map_block (g : cell -> cell) j u v : g (plain NaN) = plain NaN -> map g (block j u v) = block j (g u) (g v).
Proof. intros H. destruct j; cbn; rewrite ?H; reflexivity. Qed.

(** The value shown for a bin of height [h] ... *)
Definition shown_val (rn : renorm_arg) (m h : R) : flt := match renorm_value rn with None => Fin h | Some r => rescale m r (Fin h) end.
Definition hidden_val (rn : renorm_arg) (nz pos : bool) (m h : R) : bool :=
  orb (andb nz (Reqb h 0)) (andb pos (andb (negb (andb nz (Reqb h 0))) (f_negative (shown_val rn m h)))).

Lemma finite_flat j (f : bin3 -> cell) L : finite_vals (flat_map (fun b => block j (f b) (f b)) L)
  = flat_map (fun b => finite_vals [f b] ++ finite_vals [f b]) L.
Proof.
  unfold finite_vals. induction L as [|b L IH]; [reflexivity|]. cbn [flat_map]. rewrite flat_map_app, IH. f_equal. destruct j; cbn; rewrite ?app_nil_r; reflexivity.
Qed.
Lemma vmax_max v vs : max_of (v :: vs) (vmax v vs).
Proof.
  revert v. induction vs as [|w vs IH]; intros v; cbn [vmax].
  - split; [left; reflexivity|]. intros x [<-|[]]. lra.
  - destruct (IH (Rmax v w)) as [A B]. split.
    + destruct A as [A|A]; [|right; right; exact A]. rewrite <- A. unfold Rmax. destruct (Rle_dec v w); [right; left|left]; reflexivity.
    + intros x [<-|[<-|Hx]]; [eapply Rle_trans; [apply Rmax_l|apply B; left; reflexivity]|eapply Rle_trans; [apply Rmax_r|apply B; left; reflexivity]|apply B; right; exact Hx].
Qed.
Lemma vmin_min v vs : min_of (v :: vs) (vmin v vs).
Proof.
  revert v. induction vs as [|w vs IH]; intros v; cbn [vmin].
  - split; [left; reflexivity|]. intros x [<-|[]]. lra.
  - destruct (IH (Rmin v w)) as [A B]. split.
    + destruct A as [A|A]; [|right; right; exact A]. rewrite <- A. unfold Rmin. destruct (Rle_dec v w); [left|right; left]; reflexivity.
    + intros x [<-|[<-|Hx]]; [eapply Rle_trans; [apply B; left; reflexivity|apply Rmin_l]|eapply Rle_trans; [apply B; left; reflexivity|apply Rmin_r]|apply B; right; exact Hx].
Qed.
Lemma bins_hist edges hist h : length edges = S (length hist) -> ((exists b, In b (bins_of edges hist) /\ snd b = h) <-> In h hist).
Proof.
  intros L. assert (E : map snd (bins_of edges hist) = hist).
  { revert edges L. induction hist as [|x t IH]; intros [|a [|b r]] H; cbn in H; try lia; [reflexivity|]. rewrite bins_cons. cbn [map snd]. rewrite IH by (cbn; lia). reflexivity. }
  transitivity (In h (map snd (bins_of edges hist))); [rewrite in_map_iff; split; intros (b & A & B); exists b; auto|rewrite E; reflexivity].
Qed.

(** The result in blocks. *)
Lemma draw_blocks edges hist rn nz pos j rot xs ys : draw_hist1d edges hist rn nz pos j rot = Ok (xs, ys) ->
  exists m, length edges = S (length hist) /\ (renorm_value rn <> None -> max_of (drawn nz hist) m) /\
  let px := if rot then ys else xs in let py := if rot then xs else ys in
  px = flat_map (fun b : bin3 => let hid := if rot then false else hidden_val rn nz pos m (snd b) in
                               block j (mkCell (Fin (fst (fst b))) hid) (mkCell (Fin (snd (fst b))) hid)) (bins_of edges hist)
  /\ py = flat_map (fun b : bin3 => let c := mkCell (shown_val rn m (snd b)) (hidden_val rn nz pos m (snd b)) in block j c c) (bins_of edges hist).
Proof.
  unfold draw_hist1d. destruct (Nat.eqb_spec (length edges) (S (length hist))) as [L|]; [|discriminate]. cbn [negb].
  destruct hist as [|h0 hs] eqn:EH; [discriminate|]. rewrite <- EH in *. cbv zeta. set (B := bins_of edges hist).
  assert (X0 : map plain ((if j then fun l => l else separate) (step_x edges)) = flat_map (fun b : bin3 => block j (plain (Fin (fst (fst b)))) (plain (Fin (snd (fst b))))) B).
  { rewrite (step_x_bins edges hist L). fold B. destruct j; [|rewrite separate_flat]; rewrite map_flat; apply flat_ext; reflexivity. }
  assert (Y0 : map plain ((if j then fun l => l else separate) (step_y hist)) = flat_map (fun b : bin3 => block j (plain (Fin (snd b))) (plain (Fin (snd b)))) B).
  { rewrite (step_y_bins edges hist L). fold B. destruct j; [|rewrite separate_flat]; rewrite map_flat; apply flat_ext; reflexivity. }
  replace (if j then step_x edges else separate (step_x edges)) with ((if j then fun l => l else separate) (step_x edges)) by (destruct j; reflexivity).
  replace (if j then step_y hist else separate (step_y hist)) with ((if j then fun l => l else separate) (step_y hist)) by (destruct j; reflexivity).
  rewrite X0, Y0. clear X0 Y0.
  set (FX := flat_map (fun b : bin3 => block j (plain (Fin (fst (fst b)))) (plain (Fin (snd (fst b))))) B). set (FY := flat_map (fun b : bin3 => block j (plain (Fin (snd b))) (plain (Fin (snd b)))) B).
  set (hz := fun b : bin3 => andb nz (Reqb (snd b) 0)).
  assert (X1 : (if nz then mask_where f_zero FY FX else FX) = flat_map (fun b : bin3 => block j (mkCell (Fin (fst (fst b))) (hz b)) (mkCell (Fin (snd (fst b))) (hz b))) B).
  { destruct nz; [|reflexivity]. unfold FX, FY. rewrite mask_where_flat by (intros; rewrite !block_length; reflexivity). apply flat_ext. intros b. rewrite mask_block by reflexivity. reflexivity. }
  rewrite X1. clear X1.
  assert (Y1 : (if nz then mask_where f_zero FY FY else FY) = flat_map (fun b : bin3 => block j (mkCell (Fin (snd b)) (hz b)) (mkCell (Fin (snd b)) (hz b))) B).
  { destruct nz; [|reflexivity]. unfold FY. rewrite mask_where_flat by (intros; rewrite !block_length; reflexivity). apply flat_ext. intros b. rewrite mask_block by reflexivity. reflexivity. }
  rewrite Y1. clear Y1.
  match goal with |- context [bind ?e _] => assert (Y2 : (exists ex, e = Err ex) \/ exists m, (renorm_value rn <> None -> max_of (drawn nz hist) m) /\
    e = Ok (flat_map (fun b : bin3 => block j (mkCell (shown_val rn m (snd b)) (hz b)) (mkCell (shown_val rn m (snd b)) (hz b))) B)) end.
  { unfold shown_val. destruct (renorm_value rn) as [r|].
    - match goal with |- context [finite_vals ?l] => destruct (finite_vals l) as [|v vs] eqn:EF end; [left; eexists; reflexivity|]. right. exists (vmax v vs). split.
      + intros _. pose proof (vmax_max v vs) as M. rewrite <- EF in M. clear EF. set (mm := vmax v vs) in *. rewrite finite_flat in M.
        assert (IFF : forall x, In x (flat_map (fun b : bin3 => finite_vals [mkCell (Fin (snd b)) (hz b)] ++ finite_vals [mkCell (Fin (snd b)) (hz b)]) B) <-> In x (drawn nz hist)).
        { intros x. rewrite in_flat_map. split.
          - intros (b & Hb & Hx). assert (Hh : In (snd b) hist) by (apply (bins_hist edges hist (snd b) L); exists b; auto).
            unfold hz in Hx. unfold drawn. cbn in Hx. destruct nz; cbn in Hx; [|destruct Hx as [<-|[<-|[]]]; exact Hh].
            apply filter_In. destruct (Reqb (snd b) 0) eqn:EZ; cbn in Hx; [contradiction|]. destruct Hx as [<-|[<-|[]]]; rewrite EZ; auto.
          - intros Hx. assert (Hh : In x hist /\ andb nz (Reqb x 0) = false).
            { unfold drawn in Hx. destruct nz; [|auto]. apply filter_In in Hx. destruct Hx as [Hx E]. split; [exact Hx|]. destruct (Reqb x 0); [discriminate|reflexivity]. }
            destruct Hh as [Hh EZ]. apply (bins_hist edges hist x L) in Hh. destruct Hh as (b & Hb & <-). exists b. split; [exact Hb|]. unfold hz. cbn. rewrite EZ. left. reflexivity. }
        destruct M as [M1 M2]. split; [apply IFF, M1|]. intros x Hx. apply M2, IFF, Hx.
      + f_equal. rewrite map_flat. apply flat_ext. intros b. rewrite map_block by reflexivity. reflexivity.
    - right. exists 0. split; [congruence|reflexivity]. }
  destruct Y2 as [[ex ->]|(m & HM & ->)]; [discriminate|]. cbn [bind].
  set (GX := flat_map (fun b : bin3 => block j (mkCell (Fin (fst (fst b))) (hz b)) (mkCell (Fin (snd (fst b))) (hz b))) B).
  set (GY := flat_map (fun b : bin3 => block j (mkCell (shown_val rn m (snd b)) (hz b)) (mkCell (shown_val rn m (snd b)) (hz b))) B).
  assert (X3 : (if pos then mask_where f_negative GY GX else GX) = flat_map (fun b : bin3 => block j (mkCell (Fin (fst (fst b))) (hidden_val rn nz pos m (snd b))) (mkCell (Fin (snd (fst b))) (hidden_val rn nz pos m (snd b)))) B).
  { unfold hidden_val, GX, GY. destruct pos; [|apply flat_ext; intros b; unfold hz; cbn; rewrite orb_false_r; reflexivity].
    rewrite mask_where_flat by (intros; rewrite !block_length; reflexivity). apply flat_ext. intros b. rewrite mask_block by reflexivity. reflexivity. }
  rewrite X3. clear X3.
  assert (Y3 : (if pos then mask_where f_negative GY GY else GY) = flat_map (fun b : bin3 => block j (mkCell (shown_val rn m (snd b)) (hidden_val rn nz pos m (snd b))) (mkCell (shown_val rn m (snd b)) (hidden_val rn nz pos m (snd b)))) B).
  { unfold hidden_val, GX, GY. destruct pos; [|apply flat_ext; intros b; unfold hz; cbn; rewrite orb_false_r; reflexivity].
    rewrite mask_where_flat by (intros; rewrite !block_length; reflexivity). apply flat_ext. intros b. rewrite mask_block by reflexivity. reflexivity. }
  rewrite Y3. clear Y3.
  destruct rot; intros H; injection H as <- <-; exists m; (split; [exact L|]); (split; [exact HM|]); cbv zeta; (split; [|reflexivity]); [|reflexivity].
  rewrite map_flat. apply flat_ext. intros b. rewrite map_block by reflexivity. reflexivity.
Qed.

(** The outline: for each bin the two ends at its height; without joints a gap after each. *)
Theorem outline edges hist rn nz pos j rot xs ys : draw_hist1d edges hist rn nz pos j rot = Ok (xs, ys) ->
  let px := if rot then ys else xs in let py := if rot then xs else ys in let s := if j then 2%nat else 3%nat in
  length edges = S (length hist) /\ length px = (s * length hist)%nat /\ length py = (s * length hist)%nat
  /\ (forall i k d, (i < length hist)%nat -> (k < 2)%nat -> c_val (nth (s * i + k) px d) = Fin (nth (i + k) edges 0))
  /\ (forall i k d, (i < length hist)%nat -> (k < 2)%nat -> renorm_value rn = None -> c_val (nth (s * i + k) py d) = Fin (nth i hist 0))
  /\ (forall i d, (i < length hist)%nat -> j = false -> nth (s * i + 2) px d = mkCell NaN false /\ nth (s * i + 2) py d = mkCell NaN false).
Proof.
  intros H. destruct (draw_blocks _ _ _ _ _ _ _ _ _ H) as (m & L & _ & EX & EY). cbv zeta in EX, EY. cbv zeta. rewrite EX, EY. clear EX EY H.
  pose proof (bins_length _ _ L) as LB. split; [exact L|].
  split; [rewrite (flat_length _ (if j then 2 else 3)%nat) by (intros; cbv beta zeta; apply block_length); rewrite LB; reflexivity|].
  split; [rewrite (flat_length _ (if j then 2 else 3)%nat) by (intros; cbv beta zeta; apply block_length); rewrite LB; reflexivity|]. split; [|split].
  - intros i k d Hi Hk. rewrite (flat_nth _ (if j then 2 else 3)%nat _ i k d (0, 0, 0)) by (first [intros; cbv beta zeta; apply block_length | rewrite LB; assumption | destruct j; lia]).
    rewrite bins_nth by assumption. cbn [fst snd]. destruct k as [|[|k]]; [| |lia]; destruct j; cbn [block nth c_val]; unfold vget; do 2 f_equal; lia.
  - intros i k d Hi Hk HR. rewrite (flat_nth _ (if j then 2 else 3)%nat _ i k d (0, 0, 0)) by (first [intros; cbv beta zeta; apply block_length | rewrite LB; assumption | destruct j; lia]).
    rewrite bins_nth by assumption. cbn [fst snd]. unfold shown_val. rewrite HR. destruct k as [|[|k]]; [| |lia]; destruct j; reflexivity.
  - intros i d Hi ->. split; rewrite (flat_nth _ 3%nat _ i 2 d (0, 0, 0)) by (first [intros; cbv beta zeta; apply block_length | rewrite LB; assumption | lia]); reflexivity.
Qed.
(** Renormalising divides by the largest of the drawn values and multiplies by the number given. *)
Theorem outline_renormalize edges hist rn nz pos j rot xs ys r : draw_hist1d edges hist rn nz pos j rot = Ok (xs, ys) -> renorm_value rn = Some r ->
  let py := if rot then xs else ys in let s := if j then 2%nat else 3%nat in
  exists m, max_of (drawn nz hist) m /\
  forall i k d, (i < length hist)%nat -> (k < 2)%nat ->
    (m <> 0 -> c_val (nth (s * i + k) py d) = Fin (nth i hist 0 / m * r)) /\ (m = 0 -> nth i hist 0 = 0 -> c_val (nth (s * i + k) py d) = NaN).
Proof.
  intros H HR. destruct (draw_blocks _ _ _ _ _ _ _ _ _ H) as (m & L & HM & _ & EY). cbv zeta in EY. cbv zeta. rewrite EY. clear EY H.
  pose proof (bins_length _ _ L) as LB. exists m. split; [apply HM; congruence|]. intros i k d Hi Hk.
  rewrite (flat_nth _ (if j then 2 else 3)%nat _ i k d (0, 0, 0)) by (first [intros; cbv beta zeta; apply block_length | rewrite LB; assumption | destruct j; lia]).
  rewrite bins_nth by assumption. cbn [fst snd]. unfold shown_val. rewrite HR.
  assert (E : c_val (nth k (block j (mkCell (rescale m r (Fin (vget hist i))) (hidden_val rn nz pos m (vget hist i))) (mkCell (rescale m r (Fin (vget hist i))) (hidden_val rn nz pos m (vget hist i)))) d) = rescale m r (Fin (vget hist i))).
  { destruct k as [|[|k]]; [| |lia]; destruct j; reflexivity. }
  rewrite E. unfold rescale, fdiv. change (nth i hist 0) with (vget hist i). split.
  - intros Hm. destruct (Reqb_spec m 0) as [Z|_]; [contradiction|]. reflexivity.
  - intros -> Hh. rewrite (proj2 (Reqb_true 0 0)) by reflexivity. rewrite Hh. rewrite (proj2 (Reqb_true 0 0)) by reflexivity. reflexivity.
Qed.
(** Hidden are exactly the empty bins (nonzero=True) and those with a negative value (positive=True). *)
Theorem outline_hidden edges hist rn nz pos j rot xs ys : draw_hist1d edges hist rn nz pos j rot = Ok (xs, ys) ->
  let px := if rot then ys else xs in let py := if rot then xs else ys in let s := if j then 2%nat else 3%nat in
  forall i k d, (i < length hist)%nat -> (k < 2)%nat ->
    (c_mask (nth (s * i + k) py d) = true <->
       (nz = true /\ nth i hist 0 = 0) \/ (pos = true /\ (c_val (nth (s * i + k) py d) = NInf \/ exists y, c_val (nth (s * i + k) py d) = Fin y /\ y < 0)))
    /\ (rot = false -> c_mask (nth (s * i + k) px d) = c_mask (nth (s * i + k) py d)) /\ (rot = true -> c_mask (nth (s * i + k) px d) = false).
Proof.
  intros H. destruct (draw_blocks _ _ _ _ _ _ _ _ _ H) as (m & L & HM & EX & EY). cbv zeta in EX, EY. cbv zeta. rewrite EX, EY. clear EX EY H.
  pose proof (bins_length _ _ L) as LB. intros i k d Hi Hk.
  rewrite !(flat_nth _ (if j then 2 else 3)%nat _ i k d (0, 0, 0)) by (first [intros; cbv beta zeta; apply block_length | rewrite LB; assumption | destruct j; lia]).
  rewrite bins_nth by assumption. cbn [fst snd]. set (v := shown_val rn m (vget hist i)). set (hid := hidden_val rn nz pos m (vget hist i)).
  assert (E : nth k (block j (mkCell v hid) (mkCell v hid)) d = mkCell v hid) by (destruct k as [|[|k]]; [| |lia]; destruct j; reflexivity).
  rewrite E. cbn [c_val c_mask].
  assert (EM : c_mask (nth k (block j (mkCell (Fin (vget edges i)) (if rot then false else hid)) (mkCell (Fin (vget edges (S i))) (if rot then false else hid))) d) = if rot then false else hid).
  { destruct k as [|[|k]]; [| |lia]; destruct j; reflexivity. }
  split; [|split; intros ->; exact EM]. unfold hid, hidden_val. fold v. change (nth i hist 0) with (vget hist i).
  rewrite orb_true_iff, !andb_true_iff, negb_true_iff. split.
  - intros [[Hn Hz]|(Hp & _ & Hf)]; [left; split; [exact Hn|apply Reqb_true, Hz]|right; split; [exact Hp|]].
    destruct v; cbn in Hf; try discriminate; [right; eexists; split; [reflexivity|apply Rltb_true, Hf]|left; reflexivity].
  - intros [[Hn Hz]|[Hp Hf]].
    + left. split; [exact Hn|apply Reqb_true, Hz].
    + destruct (andb nz (Reqb (vget hist i) 0)) eqn:EZ; [left; apply andb_true_iff, EZ|]. right. split; [exact Hp|]. split; [reflexivity|].
      destruct Hf as [->|(y & -> & Hy)]; [reflexivity|apply Rltb_true, Hy].
Qed.
(** It succeeds for edges one more than the values, at least one; when renormalising, some value must be drawn. *)
Theorem outline_total edges hist rn nz pos j rot : length edges = S (length hist) -> hist <> [] -> (renorm_value rn <> None -> drawn nz hist <> []) ->
  exists xs ys, draw_hist1d edges hist rn nz pos j rot = Ok (xs, ys).
Proof.
  intros L Hne Hd. unfold draw_hist1d. rewrite L, Nat.eqb_refl. cbn [negb]. destruct hist as [|h0 hs] eqn:EH; [contradiction|]. rewrite <- EH in *. cbv zeta.
  match goal with |- context [bind ?e _] => assert (Q : exists y2, e = Ok y2) end.
  { destruct (renorm_value rn) as [r|]; [|eexists; reflexivity]. assert (D : drawn nz hist <> []) by (apply Hd; congruence).
    match goal with |- context [finite_vals ?l] => destruct (finite_vals l) as [|v vs] eqn:EF end; [|eexists; reflexivity]. exfalso.
    destruct (drawn nz hist) as [|x t] eqn:ED; [contradiction|]. assert (Hx : In x (drawn nz hist)) by (rewrite ED; left; reflexivity).
    assert (Hh : In x hist /\ andb nz (Reqb x 0) = false).
    { unfold drawn in Hx. destruct nz; [|auto]. apply filter_In in Hx. destruct Hx as [Hx E]. split; [exact Hx|]. destruct (Reqb x 0); [discriminate|reflexivity]. }
    destruct Hh as [Hh EZ].
    assert (HY : In (plain (Fin x)) (map plain (if j then step_y hist else separate (step_y hist)))).
    { apply in_map. assert (HS : In (Fin x) (step_y hist)) by (apply in_flat_map; exists x; split; [exact Hh|left; reflexivity]).
      destruct j; [exact HS|]. clear -Hh. induction hist as [|h t IH]; [destruct Hh|]. cbn. destruct Hh as [->|Hh]; [left; reflexivity|]. do 3 right. apply IH, Hh. }
    assert (HF : In x (finite_vals (if nz then mask_where f_zero (map plain (if j then step_y hist else separate (step_y hist))) (map plain (if j then step_y hist else separate (step_y hist)))
                                   else map plain (if j then step_y hist else separate (step_y hist))))); [|rewrite EF in HF; destruct HF].
    set (Y := map plain (if j then step_y hist else separate (step_y hist))) in *. unfold finite_vals. apply in_flat_map. exists (plain (Fin x)). split; [|left; reflexivity].
    destruct nz; [|exact HY]. clear -HY EZ. cbn in EZ. unfold mask_where. apply in_map_iff. exists (plain (Fin x), plain (Fin x)). split; [cbn; rewrite EZ; reflexivity|].
    induction Y as [|c Y IH]; [destruct HY|]. cbn [combine]. destruct HY as [->|HY]; [left; reflexivity|right; apply IH, HY]. }
  destruct Q as [y2 ->]. cbn [bind]. destruct rot; eexists _, _; reflexivity.
Qed.
Theorem outline_mismatch edges hist rn nz pos j rot : length edges <> S (length hist) \/ hist = [] -> draw_hist1d edges hist rn nz pos j rot = Err ValueError.
Proof.
  unfold draw_hist1d. intros [H|H]; [|rewrite H]; destruct (Nat.eqb_spec (length edges) (S (length hist))); try contradiction; try reflexivity;
  destruct (Nat.eqb (length edges) (S (length []))); reflexivity.
Qed.

(* ------------------------------------------------------------ padding *)
Lemma pad_edge_ok p ee : (2 <= length ee)%nat -> exists ee', pad_edge p ee = Ok ee' /\ length ee' = (length ee + 2 * p)%nat
  /\ (forall i, (i < length ee)%nat -> nth (i + p) ee' 0 = nth i ee 0)
  /\ (forall k, (k < p)%nat -> nth k ee' 0 = nth 0 ee 0 - INR (p - k) * (nth 1 ee 0 - nth 0 ee 0))
  /\ (forall k, (k < p)%nat -> nth (length ee + p + k) ee' 0 = nth (length ee - 1) ee 0 + INR (S k) * (nth (length ee - 1) ee 0 - nth (length ee - 2) ee 0)).
Proof.
  intros H. destruct ee as [|e0 [|e1 r]]; try (cbn in H; lia). set (ee := e0 :: e1 :: r) in *. cbv beta iota delta [pad_edge]. unfold ee at 1. cbv iota zeta. fold ee.
  eexists. split; [reflexivity|]. set (lo := map _ (seq 0 p)). set (hi := map _ (seq 0 p)).
  assert (Ll : length lo = p) by (unfold lo; rewrite map_length, seq_length; reflexivity).
  assert (Lh : length hi = p) by (unfold hi; rewrite map_length, seq_length; reflexivity).
  split; [rewrite !app_length, Ll, Lh; lia|]. split; [|split].
  - intros i Hi. rewrite app_nth2 by lia. rewrite app_nth1 by lia. f_equal. lia.
  - intros k Hk. rewrite app_nth1 by lia. change (vget lo k = vget ee 0 - INR (p - k) * (vget ee 1 - vget ee 0)). unfold lo. rewrite vget_map_seq by exact Hk.
    replace (S (p - 1 - k)) with (p - k)%nat by lia. reflexivity.
  - intros k Hk. rewrite app_nth2 by lia. rewrite app_nth2 by lia. replace (length ee + p + k - length lo - length ee)%nat with k by lia.
    change (nth k hi 0) with (vget hi k). unfold hi. rewrite vget_map_seq by exact Hk. reflexivity.
Qed.
Lemma incr_step l : (forall i, (S i < length l)%nat -> nth i l 0 < nth (S i) l 0) -> incr_list l.
Proof.
  intros H i j Hij. assert (G : forall k, (i + S k < length l)%nat -> nth i l 0 < nth (i + S k) l 0).
  { induction k as [|k IH]; intros Hk; [replace (i + 1)%nat with (S i) by lia; apply H; lia|]. eapply Rlt_trans; [apply IH; lia|].
    replace (i + S (S k))%nat with (S (i + S k)) by lia. apply H. lia. }
  intros Hj. replace j with (i + S (j - i - 1))%nat by lia. apply G. lia.
Qed.
Lemma pad_edge_incr p ee ee' : (2 <= length ee)%nat -> incr_list ee -> pad_edge p ee = Ok ee' -> incr_list ee'.
Proof.
  intros H HI E. destruct (pad_edge_ok p ee H) as (e' & E' & L & A & B & C). assert (Q : e' = ee') by congruence. subst e'. clear E'.
  assert (D0 : 0 < nth 1 ee 0 - nth 0 ee 0) by (pose proof (HI 0%nat 1%nat ltac:(lia) ltac:(lia)); lra).
  assert (D1 : 0 < nth (length ee - 1) ee 0 - nth (length ee - 2) ee 0) by (pose proof (HI (length ee - 2)%nat (length ee - 1)%nat ltac:(lia) ltac:(lia)); lra).
  apply incr_step. intros i Hi. rewrite L in Hi. destruct (Nat.lt_ge_cases i p) as [Hp|Hp].
  - rewrite B by exact Hp. destruct (Nat.eq_dec (S i) p) as [Ep|Ep].
    + replace (nth (S i) ee' 0) with (nth 0 ee 0) by (rewrite <- (A 0%nat) by lia; f_equal; lia).
      assert (0 < INR (p - i)) by (apply lt_0_INR; lia). assert (0 < INR (p - i) * (nth 1 ee 0 - nth 0 ee 0)) by (apply Rmult_lt_0_compat; assumption). lra.
    + rewrite B by lia. assert (INR (p - S i) < INR (p - i)) by (apply lt_INR; lia).
      assert (INR (p - S i) * (nth 1 ee 0 - nth 0 ee 0) < INR (p - i) * (nth 1 ee 0 - nth 0 ee 0)) by (apply Rmult_lt_compat_r; assumption). lra.
  - destruct (Nat.lt_ge_cases (S i) (length ee + p)) as [Hq|Hq].
    + replace i with ((i - p) + p)%nat by lia. replace (S (i - p + p)) with (S (i - p) + p)%nat by lia. rewrite !A by lia. apply HI; lia.
    + destruct (Nat.eq_dec (S i) (length ee + p)) as [Ei|Ei].
      * replace i with ((length ee - 1) + p)%nat by lia. rewrite A by lia. replace (S (length ee - 1 + p)) with (length ee + p + 0)%nat by lia. rewrite C by lia.
        cbn [INR]. lra.
      * replace i with (length ee + p + (i - length ee - p))%nat by lia. replace (S (length ee + p + (i - length ee - p))) with (length ee + p + S (i - length ee - p))%nat by lia.
        rewrite !C by lia. rewrite (S_INR (S (i - length ee - p))). lra.
Qed.
Lemma pad_interior_shift p sh idx : inb sh idx -> pad_interior p sh (shift_idx p idx) = true /\ map (fun i => (i - p)%nat) (shift_idx p idx) = idx.
Proof.
  intros H. induction H as [|i n idx sh Hi H [IH1 IH2]]; [split; reflexivity|]. cbn [shift_idx map pad_interior]. fold (shift_idx p idx). rewrite IH1, IH2. split.
  - rewrite (proj2 (Nat.leb_le _ _)) by lia. rewrite (proj2 (Nat.ltb_lt _ _)) by lia. reflexivity.
  - f_equal. lia.
Qed.
Lemma pad_interior_inv p sh idx : length idx = length sh -> pad_interior p sh idx = true -> exists j, inb sh j /\ idx = shift_idx p j.
Proof.
  revert idx. induction sh as [|n sh IH]; intros [|i idx] L H; try discriminate L; [exists []; split; [constructor|reflexivity]|].
  cbn [pad_interior] in H. rewrite !andb_true_iff in H. destruct H as [[H1 H2] H3]. apply Nat.leb_le in H1. apply Nat.ltb_lt in H2.
  destruct (IH idx ltac:(injection L; auto) H3) as (j & Hj & ->). exists ((i - p)%nat :: j). split; [constructor; [lia|exact Hj]|]. cbn. f_equal. lia.
Qed.
Lemma mapM_pad p edges : (forall e, In e edges -> (2 <= length e)%nat) -> exists es, mapM (pad_edge p) edges = Ok es /\ Forall2 (fun e e' => pad_edge p e = Ok e') edges es.
Proof.
  induction edges as [|e edges IH]; intros H; [exists []; split; [reflexivity|constructor]|].
  destruct (pad_edge_ok p e (H e (or_introl eq_refl))) as (e' & E & _). destruct IH as (es & E2 & F); [intros; apply H; right; assumption|].
  exists (e' :: es). cbn [mapM]. rewrite E. cbn [bind]. rewrite E2. cbn [bind]. split; [reflexivity|constructor; assumption].
Qed.
(** Padding keeps the values, surrounds them by the smallest value, and continues the edges evenly. *)
Theorem padding edges hist p : (forall e, In e edges -> (2 <= length e)%nat /\ incr_list e) -> (exists v, entry hist v) ->
  exists es h lo, pad_hist edges hist p = Ok (es, h)
  /\ (exists idx, inb (shp hist) idx /\ at_ hist idx = lo) /\ (forall v, entry hist v -> lo <= v)
  /\ shp h = map (fun n => (n + 2 * p)%nat) (shp hist)
  /\ (forall idx, inb (shp hist) idx -> at_ h (shift_idx p idx) = at_ hist idx)
  /\ (forall idx, inb (shp h) idx -> (forall j, inb (shp hist) j -> idx <> shift_idx p j) -> at_ h idx = lo)
  /\ length es = length edges
  /\ (forall d, (d < length edges)%nat -> incr_list (nth d es []) /\ length (nth d es []) = (length (nth d edges []) + 2 * p)%nat
       /\ forall i, (i < length (nth d edges []))%nat -> nth (i + p) (nth d es []) 0 = nth i (nth d edges []) 0).
Proof.
  intros He [v0 (idx0 & H0 & E0)]. unfold pad_hist.
  assert (HF : forall v, entry hist v <-> In v (flatten_nd hist)).
  { intros v. unfold entry, flatten_nd. rewrite in_map_iff. split; intros (idx & A & B); exists idx; [split; [exact B|apply inb_all_idx, A]|split; [apply inb_all_idx, B|exact A]]. }
  destruct (flatten_nd hist) as [|v vs] eqn:EF. { exfalso. assert (Q : In v0 []) by (apply HF; exists idx0; auto). destruct Q. }
  destruct (mapM_pad p edges (fun e H => proj1 (He e H))) as (es & EM & F2). rewrite EM. cbn [bind]. pose proof (vmin_min v vs) as [M1 M2].
  exists es, (pad_nd p (vmin v vs) hist), (vmin v vs). split; [reflexivity|]. split; [apply HF, M1|]. split; [intros u Hu; apply M2, HF, Hu|].
  split; [reflexivity|]. split; [|split; [|split]].
  - intros idx Hi. cbn [pad_nd at_]. destruct (pad_interior_shift p _ _ Hi) as [-> ->]. reflexivity.
  - intros idx Hi Hn. cbn [pad_nd at_]. destruct (pad_interior p (shp hist) idx) eqn:EP; [|reflexivity]. exfalso.
    destruct (pad_interior_inv p (shp hist) idx) as (j & Hj & ->); [|exact EP|apply (Hn j Hj); reflexivity].
    cbn [pad_nd shp] in Hi. assert (Q : forall (a : list nat) b, inb b a -> length a = length b) by (intros a b Q; induction Q; cbn; congruence).
    rewrite (Q _ _ Hi), map_length. reflexivity.
  - clear -F2. induction F2; cbn; congruence.
  - intros d Hd. assert (E : pad_edge p (nth d edges []) = Ok (nth d es [])).
    { clear -F2 Hd. revert d Hd. induction F2 as [|e e' l l' H _ IH]; intros d Hd; [cbn in Hd; lia|]. destruct d as [|d]; [exact H|]. apply IH. cbn in Hd. lia. }
    destruct (He (nth d edges []) (nth_In _ _ Hd)) as [H2 HI]. split; [eapply pad_edge_incr; eassumption|].
    destruct (pad_edge_ok p _ H2) as (e' & E' & L & A & _). assert (Q : e' = nth d es []) by congruence. rewrite <- Q. split; [exact L|exact A].
Qed.

(** Bin centres. *)
Lemma mids_length l : length (mids l) = (length l - 1)%nat.
Proof. induction l as [|a [|b l] IH]; [reflexivity|reflexivity|]. cbn [mids length] in *. rewrite IH. lia. Qed.
Lemma mids_nth l i : (S i < length l)%nat -> nth i (mids l) 0 = (nth (S i) l 0 + nth i l 0) / 2.
Proof.
  revert i. induction l as [|a [|b l] IH]; intros i Hi; [cbn in Hi; lia|cbn in Hi; lia|]. destruct i as [|i]; [reflexivity|].
  cbn [mids nth]. apply (IH i). cbn in *. lia.
Qed.
Lemma nats_eqb_true l m : nats_eqb l m = true <-> l = m.
Proof. unfold nats_eqb. destruct (list_eq_dec Nat.eq_dec l m); split; congruence. Qed.
(** The arrays handed to the contour function: two arrays of coordinates and one of values, all of one shape; the coordinates are
    the given ones, or the centres of the bins if there is one more edge than values. *)
Theorem prepared edges hist e1 e2 : edges = [e1; e2] ->
  (shp hist = [length e1; length e2] ->
     exists xs ys, prep_hist edges hist PadFalse = Ok ([xs; ys], hist) /\ shp xs = shp hist /\ shp ys = shp hist
     /\ forall i j, at_ xs [i; j] = nth i e1 0 /\ at_ ys [i; j] = nth j e2 0)
  /\ (map S (shp hist) = [length e1; length e2] ->
     exists xs ys, prep_hist edges hist PadFalse = Ok ([xs; ys], hist) /\ shp xs = shp hist /\ shp ys = shp hist
     /\ forall i j, inb (shp hist) [i; j] -> at_ xs [i; j] = (nth i e1 0 + nth (S i) e1 0) / 2 /\ at_ ys [i; j] = (nth j e2 0 + nth (S j) e2 0) / 2)
  /\ (shp hist <> [length e1; length e2] -> map S (shp hist) <> [length e1; length e2] -> prep_hist edges hist PadFalse = Err ValueError).
Proof.
  intros ->. unfold prep_hist. cbn [pad_count bind fst snd]. unfold match_edges. cbn [map]. split; [|split].
  - intros E. rewrite (proj2 (nats_eqb_true _ _) E). cbn [bind length Nat.eqb negb seq map]. eexists _, _. split; [reflexivity|]. cbn [mesh shp map at_ nth].
    split; [symmetry; exact E|]. split; [symmetry; exact E|]. intros i j. split; reflexivity.
  - intros E. destruct (nats_eqb (shp hist) [length e1; length e2]) eqn:E1.
    { apply nats_eqb_true in E1. rewrite E1 in E. cbn in E. injection E as A B. lia. }
    rewrite (proj2 (nats_eqb_true _ _) E). cbn [bind length Nat.eqb negb seq map]. eexists _, _. split; [reflexivity|]. cbn [mesh shp map at_ nth]. rewrite !mids_length.
    assert (ES : shp hist = [length e1 - 1; length e2 - 1]%nat).
    { destruct (shp hist) as [|a [|b [|c r]]]; try discriminate E. cbn in E. injection E as <- <-. cbn. rewrite !Nat.sub_0_r. reflexivity. }
    split; [symmetry; exact ES|]. split; [symmetry; exact ES|]. intros i j H. rewrite ES in H. inversion H as [|? ? ? ? H1 H2]; subst. inversion H2 as [|? ? ? ? H3 H4]; subst.
    unfold vget. rewrite !mids_nth by lia. split; field.
  - intros N1 N2. destruct (nats_eqb (shp hist) [length e1; length e2]) eqn:E1; [apply nats_eqb_true in E1; contradiction|].
    destruct (nats_eqb (map S (shp hist)) [length e1; length e2]) eqn:E2; [apply nats_eqb_true in E2; contradiction|]. reflexivity.
Qed.

(* ------------------------------------------------------------ smoothing *)
Theorem smooth_off_with_upsample s : smooth_width s NaFalse = None \/ smooth_width s NaFalse = Some 0.
Proof. unfold smooth_width. cbn [upsample_number]. destruct s as [| | |r]; auto; [right; f_equal; ring|]. destruct (Reqb r 0); [auto|right; f_equal; ring]. Qed.
Theorem smooth_without_upsample s w : smooth_width s NaNone = Some w <-> (w <> 0 /\ (s = NaNum w \/ (s = NaTrue /\ w = 1))).
Proof.
  unfold smooth_width. cbn [upsample_number]. destruct s as [| | |r].
  - split; [discriminate|intros (_ & [H|[H _]]); discriminate].
  - split; [discriminate|intros (_ & [H|[H _]]); discriminate].
  - split; [intros H; injection H as <-; split; [lra|right; auto]|intros (_ & [H|[_ ->]]); [discriminate|reflexivity]].
  - destruct (Reqb_spec r 0) as [Z|Z]; split; try discriminate; [intros (Hw & [H|[H _]]); [injection H as ->; contradiction|discriminate]
    |intros H; injection H as <-; split; [exact Z|left; reflexivity]|intros (_ & [H|[H _]]); [injection H as ->; reflexivity|discriminate]].
Qed.
Theorem smooth_scales w k : w <> 0 -> smooth_width (NaNum w) (NaNum k) = Some (w * k).
Proof. intros H. unfold smooth_width. cbn [upsample_number]. destruct (Reqb_spec w 0); [contradiction|reflexivity]. Qed.

(* ------------------------------------------------------------ masks *)
Lemma bins2d_total ex ey data ws : (2 <= length ex)%nat -> (2 <= length ey)%nat -> incr_list ex -> incr_list ey -> length ws = length data ->
  (forall p, In p data -> (vget ex 0 <= fst p <= vget ex (length ex - 1)) /\ (vget ey 0 <= snd p <= vget ey (length ey - 1))) ->
  rsum (length ex - 1) (fun i => rsum (length ey - 1) (fun j => bin_weight2d ex ey data ws i j)) = lsum ws.
Proof.
  intros Lx Ly Ix Iy Hl Hin.
  assert (N : forall e, incr_list e -> nondecr e = true) by (intros e He; apply nondecr_spec; intros i Hi; left; apply He; lia).
  rewrite (rsum_ext _ _ (fun i => sumf (fun xyw => if in_bin ex i (fst (fst xyw)) then snd xyw else 0) (combine data ws))).
  2:{ intros i Hi. unfold bin_weight2d. rewrite <- sumf_rsum_swap. apply sumf_ext. intros [[x y] w] H. cbn [fst snd]. apply in_combine_l in H. destruct (Hin _ H) as [_ [H1 H2]]. cbn [fst snd] in *.
      destruct (in_bin ex i x); cbn [andb]; [|apply rsum_zero]. rewrite bins_partition by auto. rewrite !(proj2 (Rleb_true _ _)) by assumption. reflexivity. }
  rewrite <- sumf_rsum_swap.
  transitivity (sumf (fun xyw => snd xyw) (combine data ws)).
  - apply sumf_ext. intros [[x y] w] H. cbn [fst snd]. apply in_combine_l in H. destruct (Hin _ H) as [[H1 H2] _]. cbn [fst snd] in *.
    rewrite bins_partition by auto. rewrite !(proj2 (Rleb_true _ _)) by assumption. reflexivity.
  - clear -Hl. revert data Hl. induction ws as [|w ws IH]; intros [|p data] H; try discriminate H; [reflexivity|]. cbn [combine]. rewrite sumf_cons, IH by (injection H; auto). reflexivity.
Qed.
(** mask_below=True hides the bins whose weight is at most 0.9 times the mean weight of a datum, times the area of the bin. *)
Theorem mask_true ex ey data ws i j : (2 <= length ex)%nat -> (2 <= length ey)%nat -> incr_list ex -> incr_list ey -> length ws = length data -> 0 < lsum ws -> data <> [] ->
  (forall p, In p data -> (vget ex 0 <= fst p <= vget ex (length ex - 1)) /\ (vget ey 0 <= snd p <= vget ey (length ey - 1))) ->
  (S i < length ex)%nat -> (S j < length ey)%nat ->
  (hist2d ex ey data ws MbTrue i j = None
   <-> bin_weight2d ex ey data ws i j <= 9 / 10 * (lsum ws / INR (length data)) * ((nth (S i) ex 0 - nth i ex 0) * (nth (S j) ey 0 - nth j ey 0))).
Proof.
  intros Lx Ly Ix Iy Hl HW Hne Hin Hi Hj. unfold hist2d, hist2d_hidden, hist2d_threshold, density2d. rewrite bins2d_total by assumption.
  assert (HN : 0 < INR (length data)) by (apply lt_0_INR; destruct data; [contradiction|cbn; lia]).
  set (b := bin_weight2d ex ey data ws i j). change (nth (S i) ex 0) with (vget ex (S i)). change (nth i ex 0) with (vget ex i). change (nth (S j) ey 0) with (vget ey (S j)). change (nth j ey 0) with (vget ey j).
  assert (Dx : 0 < vget ex (S i) - vget ex i) by (pose proof (Ix i (S i) ltac:(lia) ltac:(lia)); unfold vget; lra).
  assert (Dy : 0 < vget ey (S j) - vget ey j) by (pose proof (Iy j (S j) ltac:(lia) ltac:(lia)); unfold vget; lra).
  set (dx := vget ex (S i) - vget ex i) in *. set (dy := vget ey (S j) - vget ey j) in *. set (W := lsum ws) in *. set (N := INR (length data)) in *.
  assert (HT : 9 / 10 / N <> 0). { assert (0 < 9 / 10 / N) by (apply Rmult_lt_0_compat; [lra|apply Rinv_0_lt_compat, HN]). lra. }
  destruct (Reqb_spec (9 / 10 / N) 0) as [Z|_]; [contradiction|].
  assert (K : b / dx / dy / W <= 9 / 10 / N <-> b <= 9 / 10 * (W / N) * (dx * dy)).
  { assert (P : 0 < dx * dy * W) by (repeat apply Rmult_lt_0_compat; assumption). split; intros H.
    - apply (Rmult_le_compat_r (dx * dy * W)) in H; [|lra]. replace (b / dx / dy / W * (dx * dy * W)) with b in H by (field; lra). replace (9 / 10 * (W / N) * (dx * dy)) with (9 / 10 / N * (dx * dy * W)) by (field; lra). exact H.
    - apply (Rmult_le_reg_r (dx * dy * W)); [exact P|]. replace (b / dx / dy / W * (dx * dy * W)) with b by (field; lra). replace (9 / 10 / N * (dx * dy * W)) with (9 / 10 * (W / N) * (dx * dy)) by (field; lra). exact H. }
  destruct (Rleb_spec (b / dx / dy / W) (9 / 10 / N)) as [H|H]; [split; [intros _; apply K, H|reflexivity]|split; [discriminate|intros Q; apply K in Q; lra]].
Qed.
(** So without weights a bin of small enough area is hidden exactly if it is empty ... *)
Theorem mask_true_empty ex ey data i j : (2 <= length ex)%nat -> (2 <= length ey)%nat -> incr_list ex -> incr_list ey -> data <> [] ->
  (forall p, In p data -> (vget ex 0 <= fst p <= vget ex (length ex - 1)) /\ (vget ey 0 <= snd p <= vget ey (length ey - 1))) ->
  (S i < length ex)%nat -> (S j < length ey)%nat -> (nth (S i) ex 0 - nth i ex 0) * (nth (S j) ey 0 - nth j ey 0) <= 1 ->
  (hist2d ex ey data (map (fun _ => 1) data) MbTrue i j = None <-> forall x y, In (x, y) data -> ~ (in_bin ex i x = true /\ in_bin ey j y = true)).
Proof.
  intros Lx Ly Ix Iy Hne Hin Hi Hj HA.
  assert (HN : 0 < INR (length data)) by (apply lt_0_INR; destruct data; [contradiction|cbn; lia]).
  assert (HS : lsum (map (fun _ : R * R => 1) data) = INR (length data)).
  { clear. induction data as [|a l IH]; [reflexivity|]. cbn [map lsum length]. rewrite S_INR, IH. ring. }
  rewrite mask_true; try assumption; [|apply map_length|rewrite HS; exact HN].
  rewrite HS. replace (INR (length data) / INR (length data)) with 1 by (field; lra).
  assert (Dx : 0 < nth (S i) ex 0 - nth i ex 0) by (pose proof (Ix i (S i) ltac:(lia) ltac:(lia)); lra).
  assert (Dy : 0 < nth (S j) ey 0 - nth j ey 0) by (pose proof (Iy j (S j) ltac:(lia) ltac:(lia)); lra).
  set (A := (nth (S i) ex 0 - nth i ex 0) * (nth (S j) ey 0 - nth j ey 0)) in *. assert (A0 : 0 < A) by (apply Rmult_lt_0_compat; assumption).
  unfold bin_weight2d.
  assert (EC : combine data (map (fun _ : R * R => 1) data) = map (fun p => (p, 1)) data) by (clear; induction data as [|a l IH]; [reflexivity|]; cbn; rewrite IH; reflexivity).
  rewrite EC, sumf_map. cbn [fst snd]. split.
  - intros H x y Hp [B1 B2]. assert (1 <= sumf (fun p : R * R => if andb (in_bin ex i (fst p)) (in_bin ey j (snd p)) then 1 else 0) data); [|lra].
    eapply Rle_trans; [|apply (sumf_ge_term (fun p : R * R => if andb (in_bin ex i (fst p)) (in_bin ey j (snd p)) then 1 else 0) data (x, y))]; [cbn [fst snd]; rewrite B1, B2; cbn; lra| |exact Hp].
    intros p _. destruct (andb _ _); lra.
  - intros H. rewrite sumf_zero; [lra|]. intros [x y] Hp. cbn [fst snd]. destruct (in_bin ex i x) eqn:B1; [|reflexivity]. destruct (in_bin ey j y) eqn:B2; [|reflexivity]. exfalso. apply (H x y Hp). auto.
Qed.
(** ... but otherwise bins holding data are hidden: here every datum is. *)
Theorem mask_true_refuted : exists ex ey data, incr_list ex /\ incr_list ey /\ data <> []
  /\ (forall p, In p data -> (vget ex 0 <= fst p <= vget ex (length ex - 1)) /\ (vget ey 0 <= snd p <= vget ey (length ey - 1)))
  /\ (exists x y, In (x, y) data /\ in_bin ex 0 x = true /\ in_bin ey 0 y = true)
  /\ hist2d ex ey data (map (fun _ => 1) data) MbTrue 0 0 = None.
Proof.
  exists [0; 2], [0; 1], [(1, 1)].
  assert (I1 : incr_list [0; 2]) by (apply incr_step; intros [|i] Hi; cbn in *; [lra|lia]).
  assert (I2 : incr_list [0; 1]) by (apply incr_step; intros [|i] Hi; cbn in *; [lra|lia]).
  assert (HIN : forall p : R * R, In p [(1, 1)] -> (vget [0; 2] 0 <= fst p <= vget [0; 2] (length [0; 2] - 1)) /\ (vget [0; 1] 0 <= snd p <= vget [0; 1] (length [0; 1] - 1))).
  { intros p [<-|[]]. cbn. lra. }
  split; [exact I1|]. split; [exact I2|]. split; [discriminate|]. split; [exact HIN|]. split.
  - exists 1, 1. split; [left; reflexivity|]. unfold in_bin. cbn. rewrite !(proj2 (Rleb_true _ _)) by lra. auto.
  - apply mask_true; try assumption; try (cbn; lia); try reflexivity; try discriminate; [cbn; lra|]. unfold bin_weight2d. cbn. unfold sumf. cbn. destruct (andb _ _); lra.
Qed.
(** Masks given as numbers, and none. *)
Theorem mask_number ex ey data ws i j r : (r <> 0 -> (hist2d ex ey data ws (MbNum r) i j = None <-> density2d ex ey data ws i j <= r))
  /\ hist2d ex ey data ws (MbNum 0) i j = Some (density2d ex ey data ws i j) /\ hist2d ex ey data ws MbFalse i j = Some (density2d ex ey data ws i j).
Proof.
  unfold hist2d, hist2d_hidden. split; [|split].
  - intros Hr. destruct (Reqb_spec r 0); [contradiction|]. destruct (Rleb_spec (density2d ex ey data ws i j) r); split; intros; try discriminate; try reflexivity; try assumption; lra.
  - destruct (Reqb_spec 0 0); [reflexivity|lra].
  - reflexivity.
Qed.

(* ------------------------------------------------------------ limits on points *)
Theorem scatter_limit_cases : scatter_limit NaTrue = Ok (Some None) /\ scatter_limit NaFalse = Ok None /\ scatter_limit NaNone = Ok None
  /\ (forall r, r < 1 -> scatter_limit (NaNum r) = Err ValueError)
  /\ (forall r, 1 <= r -> exists k, scatter_limit (NaNum r) = Ok (Some (Some k)) /\ (1 <= k)%nat /\ INR k <= r < INR k + 1).
Proof.
  split; [reflexivity|]. split; [reflexivity|]. split; [reflexivity|]. split; intros r Hr; unfold scatter_limit; cbv zeta.
  - assert (T : (trunc_int r < 1)%Z).
    { unfold trunc_int. destruct (Rleb_spec 0 r) as [H|H]; pose proof (base_Int_part r); pose proof (base_Int_part (- r)).
      - apply lt_IZR. destruct H0. lra.
      - apply lt_IZR. rewrite opp_IZR. destruct H1. assert (0 <= IZR (Int_part (- r))); [|lra]. apply IZR_le. assert (-1 < Int_part (- r))%Z; [|lia]. apply lt_IZR. cbn. lra. }
    rewrite (proj2 (Z.ltb_lt _ _) T). reflexivity.
  - unfold trunc_int. rewrite (proj2 (Rleb_true 0 r)) by lra. destruct (base_Int_part r) as [B1 B2].
    assert (T : (1 <= Int_part r)%Z). { assert (0 < Int_part r)%Z; [|lia]. apply lt_IZR. cbn. lra. }
    rewrite (proj2 (Z.ltb_ge _ _)) by lia. exists (Z.to_nat (Int_part r)). split; [reflexivity|]. split; [lia|]. rewrite INR_IZR_INZ, Z2Nat.id by lia. lra.
Qed.
(** No more points than the limit, each at most as often as in the data; below the limit all of them in order. *)
Theorem limited_points (A : Type) (limit : option nat) (sel : nat -> nat -> list nat) (d : A) (xs : list A) :
  (forall n k, (k <= n)%nat -> length (sel n k) = k /\ NoDup (sel n k) /\ forall i, In i (sel n k) -> (i < n)%nat) ->
  match limit with
  | Some k => length (limited limit sel d xs) = Nat.min k (length xs) /\ (exists is, NoDup is /\ (forall i, In i is -> (i < length xs)%nat) /\ limited limit sel d xs = map (fun i => nth i xs d) is)
              /\ ((length xs <= k)%nat -> limited limit sel d xs = xs)
  | None => limited limit sel d xs = xs
  end.
Proof.
  intros Hs. destruct limit as [k|]; [|reflexivity]. cbn [limited]. destruct (Nat.ltb_spec k (length xs)) as [H|H].
  - destruct (Hs (length xs) k ltac:(lia)) as (L & N & B). split; [rewrite map_length, L; lia|]. split; [exists (sel (length xs) k); auto|lia].
  - split; [lia|]. split; [|reflexivity]. exists (seq 0 (length xs)). split; [apply seq_NoDup|]. split; [intros i Hi; apply in_seq in Hi; lia|].
    apply nth_ext with (d := d) (d' := d); [rewrite map_length, seq_length; reflexivity|]. intros n Hn.
    set (g := fun i => nth i xs d). symmetry. rewrite (nth_indep _ d (g 0%nat)) by (rewrite map_length, seq_length; exact Hn). rewrite (map_nth g), seq_nth by exact Hn. reflexivity.
Qed.

(* ------------------------------------------------------------ the renormalize argument *)
Lemma renormalised_value rn r : renormalised rn r -> renorm_value rn = Some r.
Proof. intros [|v Hv]; cbn; [reflexivity|]. destruct (Reqb_spec v 0); [contradiction|reflexivity]. Qed.
Lemma unnormalised_value rn : unnormalised rn -> renorm_value rn = None.
Proof. intros []; cbn; [reflexivity|]. destruct (Reqb_spec 0 0); [reflexivity|contradiction]. Qed.
Lemma value_unnormalised rn : ~ unnormalised rn -> exists r, renormalised rn r.
Proof.
  intros H. destruct rn as [| |r]; [destruct H; constructor|exists 1; constructor|]. exists r. constructor. intros ->. apply H. constructor.
Qed.
Lemma outline_arg : forall edges hist rn nz pos j rot xs ys, draw_hist1d edges hist rn nz pos j rot = Ok (xs, ys) ->
  let px := if rot then ys else xs in let py := if rot then xs else ys in let s := if j then 2%nat else 3%nat in
  length edges = S (length hist) /\ length px = (s * length hist)%nat /\ length py = (s * length hist)%nat
  /\ (forall i k d, (i < length hist)%nat -> (k < 2)%nat -> c_val (nth (s * i + k) px d) = Fin (nth (i + k) edges 0))
  /\ (forall i k d, (i < length hist)%nat -> (k < 2)%nat -> unnormalised rn -> c_val (nth (s * i + k) py d) = Fin (nth i hist 0))
  /\ (forall i d, (i < length hist)%nat -> j = false -> nth (s * i + 2) px d = mkCell NaN false /\ nth (s * i + 2) py d = mkCell NaN false).
Proof.
  intros edges hist rn nz pos j rot xs ys H. destruct (outline _ _ _ _ _ _ _ _ _ H) as (A & B & C & D & E & F). repeat (split; [assumption|]). split; [|exact F].
  intros i k d Hi Hk Hu. apply E; [exact Hi|exact Hk|apply unnormalised_value, Hu].
Qed.
Lemma outline_renormalize_arg : forall edges hist rn nz pos j rot xs ys r, draw_hist1d edges hist rn nz pos j rot = Ok (xs, ys) -> renormalised rn r ->
  let py := if rot then xs else ys in let s := if j then 2%nat else 3%nat in
  exists m, max_of (drawn nz hist) m /\
  forall i k d, (i < length hist)%nat -> (k < 2)%nat ->
    (m <> 0 -> c_val (nth (s * i + k) py d) = Fin (nth i hist 0 / m * r)) /\ (m = 0 -> nth i hist 0 = 0 -> c_val (nth (s * i + k) py d) = NaN).
Proof. intros edges hist rn nz pos j rot xs ys r H HR. exact (outline_renormalize _ _ _ _ _ _ _ _ _ r H (renormalised_value _ _ HR)). Qed.
Lemma outline_total_arg : forall edges hist rn nz pos j rot, length edges = S (length hist) -> hist <> [] -> unnormalised rn \/ drawn nz hist <> [] ->
  exists xs ys, draw_hist1d edges hist rn nz pos j rot = Ok (xs, ys).
Proof.
  intros edges hist rn nz pos j rot L Hn Hd. apply outline_total; [exact L|exact Hn|]. intros Hr. destruct Hd as [Hd|Hd]; [contradiction (Hr (unnormalised_value _ Hd))|exact Hd].
Qed.
(** Padding as asked for by the argument. *)
Lemma padded_prep : forall e1 e2 hist a p, pads_by a p -> (2 <= length e1)%nat -> (2 <= length e2)%nat -> incr_list e1 -> incr_list e2 -> map S (shp hist) = [length e1; length e2] ->
  exists xs ys h, prep_hist [e1; e2] hist a = Ok ([xs; ys], h) /\ shp h = map (fun n => (n + 2 * p)%nat) (shp hist) /\ shp xs = shp h /\ shp ys = shp h
  /\ forall i j, inb (shp hist) [i; j] -> at_ h [i + p; j + p]%nat = at_ hist [i; j]
     /\ at_ xs [i + p; j + p]%nat = (nth i e1 0 + nth (S i) e1 0) / 2 /\ at_ ys [i + p; j + p]%nat = (nth j e2 0 + nth (S j) e2 0) / 2.
Proof.
  intros e1 e2 hist a p Ha L1 L2 I1 I2 E.
  assert (ES : shp hist = [length e1 - 1; length e2 - 1]%nat).
  { destruct (shp hist) as [|x [|y [|c r]]]; try discriminate E. cbn in E. injection E as <- <-. cbn. rewrite !Nat.sub_0_r. reflexivity. }
  assert (EP : pad_count a = p) by (destruct Ha; reflexivity).
  assert (Z : (p = 0 -> exists h, exists es, (match pad_count a with O => Ok ([e1; e2], hist) | p => pad_hist [e1; e2] hist p end) = Ok (es, h) /\ es = [e1; e2] /\ h = hist)%nat)
    by (intros Hp; rewrite EP, Hp; eexists _, _; split; [reflexivity|split; reflexivity]).
  assert (G : exists es h, (match pad_count a with O => Ok ([e1; e2], hist) | p => pad_hist [e1; e2] hist p end) = Ok (es, h)
    /\ shp h = map (fun n => (n + 2 * p)%nat) (shp hist)
    /\ (forall idx, inb (shp hist) idx -> at_ h (map (fun i => (i + p)%nat) idx) = at_ hist idx)
    /\ exists f1 f2, es = [f1; f2] /\ length f1 = (length e1 + 2 * p)%nat /\ length f2 = (length e2 + 2 * p)%nat
      /\ (forall i, (i < length e1)%nat -> nth (i + p) f1 0 = nth i e1 0) /\ (forall i, (i < length e2)%nat -> nth (i + p) f2 0 = nth i e2 0)).
  { destruct p as [|p].
    - destruct (Z eq_refl) as (h & es & Q & -> & ->). exists [e1; e2], hist. split; [exact Q|]. split; [rewrite ES; cbn; rewrite !Nat.add_0_r; reflexivity|].
      split; [intros idx _; f_equal; rewrite <- (map_id idx) at 2; apply map_ext; intros; lia|]. exists e1, e2. split; [reflexivity|]. split; [lia|]. split; [lia|]. split; intros i _; rewrite Nat.add_0_r; reflexivity.
    - rewrite EP. destruct (padding [e1; e2] hist (S p)) as (es & h & lo & Q & _ & _ & HS & HV & _ & HL & HE).
      + intros e [<-|[<-|[]]]; split; assumption.
      + exists (at_ hist [0; 0]%nat), [0; 0]%nat. split; [rewrite ES; repeat constructor; lia|reflexivity].
      + exists es, h. split; [exact Q|]. split; [exact HS|]. split; [intros idx Hi; rewrite <- (HV idx Hi); f_equal; unfold shift_idx; reflexivity|].
        destruct es as [|f1 [|f2 [|f3 r]]]; try discriminate HL. exists f1, f2. split; [reflexivity|].
        destruct (HE 0%nat ltac:(cbn; lia)) as (_ & A1 & B1). destruct (HE 1%nat ltac:(cbn; lia)) as (_ & A2 & B2). cbn [nth] in *. auto. }
  destruct G as (es & h & Q & HS & HV & f1 & f2 & -> & F1 & F2 & V1 & V2).
  assert (EH : shp h = [length f1 - 1; length f2 - 1]%nat) by (rewrite HS, ES, F1, F2; cbn [map]; f_equal; [lia|f_equal; lia]).
  unfold prep_hist. rewrite Q. cbn [bind fst snd]. unfold match_edges. cbn [map].
  destruct (nats_eqb (shp h) [length f1; length f2]) eqn:E1.
  { apply nats_eqb_true in E1. rewrite EH in E1. injection E1 as A B. lia. }
  rewrite (proj2 (nats_eqb_true _ _)) by (rewrite EH; cbn [map]; f_equal; [lia|f_equal; lia]). cbn [bind length Nat.eqb negb seq map]. eexists _, _, h. split; [reflexivity|]. cbn [mesh shp map at_ nth]. rewrite !mids_length.
  split; [exact HS|]. split; [symmetry; exact EH|]. split; [symmetry; exact EH|]. intros i j H. split; [exact (HV _ H)|].
  rewrite ES in H. inversion H as [|? ? ? ? H1 H2]; subst. inversion H2 as [|? ? ? ? H3 H4]; subst.
  unfold vget. rewrite !mids_nth by lia. change (S (i + pad_count a)) with (S i + pad_count a)%nat. change (S (j + pad_count a)) with (S j + pad_count a)%nat. rewrite !V1, !V2 by lia. split; field.
Qed.

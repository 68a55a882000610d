(** Prop_Eikonal.v - property theorems C10-C14 (the local update). *)
From Coq Require Import Reals Lra Permutation.
From Flocq Require Import Core IEEE754.BinarySingleNaN.
From Verif Require Import Base BaseFacts Num NumXR NumF64 NumLaws Grid GridFacts GridUpd GridMore
  Eikonal Spec Obs Solution EikProps Examples.
Open Scope Z_scope.

(** Hypotheses shared by C10-C12: an exact grid with at least two cells per
    dimension (C05 shows why), times infinite or >= 0, spacing > 0, real
    velocities. *)
Definition exact_grid (dims : list Z) (g : grid XR) : Prop :=
  dims2 dims /\ 2 * box_size dims <= 4294967296 /\ grid_ok dims g /\ times_ok g /\ reals_ok g.

(** C10: with [ms] the per-dimension minima around cell i and [ts] the ones
    strictly below the cell's own time, the value u returned satisfies
    sum max(u - t, 0)^2 >= (h/v)^2 > sum max(u - M - t, 0)^2 and lies within M
    above the unique root. *)
Theorem C10_update_solves_upwind_equation :
  forall dims (g : grid XR) i ms, exact_grid dims g ->
  0 <= i < box_size dims -> free g i -> minima dims (times g) i ms ->
  upwind_values (times g i) ms <> [] ->
  exists u, solveEikonal g i = Ok (XFin u) /\
    let ts := upwind_values (times g i) ms in
    let f := slow g i in
    (f * f <= upwind_sum ts u /\ upwind_sum ts (u - Rmargin) < f * f)%R /\
    (exists r, upwind_sum ts r = f * f /\ (forall r', upwind_sum ts r' = f * f -> r' = r) /\
               r <= u < r + Rmargin)%R.
Proof. intros dims g i ms [H1 [H2 [H3 [H4 H5]]]]. apply update_solves; assumption. Qed.
Print Assumptions C10_update_solves_upwind_equation.

(** a 3x3 grid with cells 1 and 3 at time 2 and 5/2: cell 4 is updated from both *)
Example C10_case : exists (g : grid XR) ms, exact_grid [3;3] g /\ free g 4 /\
  minima [3;3] (times g) 4 ms /\ upwind_values (times g 4) ms = [5/2; 2]%R.
Proof.
  assert (Hp : proper [3;3]) by (repeat constructor; lia).
  assert (Hn : grid_ok [3;3] (new_grid [3;3] (XFin 1 : XR))) by (apply new_grid_ok; [exact Hp|reflexivity]).
  destruct (getCell_in [3;3] _ 1 Hn ltac:(cbn; lia)) as [c1 E1].
  destruct (updCell_in _ _ _ (fun c => with_val c (XFin 2 : XR)) E1) as [g1 H1].
  pose proof (updCell_grid_ok _ _ _ _ _ H1 Hn) as Hn1.
  destruct (getCell_in [3;3] g1 3 Hn1 ltac:(cbn; lia)) as [c3 E3].
  destruct (updCell_in _ _ _ (fun c => with_val c (XFin (5/2) : XR)) E3) as [g2 H2].
  exists g2, (dmins [3;3] (times g2) 4).
  assert (T0 : forall i, times (new_grid [3;3] (XFin 1 : XR)) i = None).
  { intros i. unfold times, getArrivalTime.
    destruct (getCell (new_grid [3;3] (XFin 1 : XR)) i) as [c|] eqn:E; [|reflexivity].
    apply new_grid_cell in E. subst. reflexivity. }
  assert (T1 : forall i, times g1 i = if 1 =? i then Some 2%R else None).
  { intros i. unfold times, getArrivalTime. rewrite (updCell_get _ _ _ _ i H1).
    destruct (Z.eqb_spec 1 i) as [<-|_]; [rewrite E1; reflexivity|]. apply T0. }
  assert (T2 : forall i, times g2 i = if 3 =? i then Some (5/2)%R else if 1 =? i then Some 2%R else None).
  { intros i. unfold times, getArrivalTime. rewrite (updCell_get _ _ _ _ i H2).
    destruct (Z.eqb_spec 3 i) as [<-|_]; [rewrite E3; reflexivity|]. apply T1. }
  split.
  { split; [repeat constructor; lia|]. split; [cbn; lia|].
    split; [exact (updCell_grid_ok _ _ _ _ _ H2 Hn1)|].
    split.
    - apply (set_times_ok g1 g2 3 (5/2)); [|lra|exact H2].
      apply (set_times_ok (new_grid [3;3] (XFin 1 : XR)) g1 1 2); [apply new_grid_times_ok|lra|exact H1].
    - apply (set_reals_ok g1 g2 3 _ ) with (2 := H2). apply (set_reals_ok _ g1 1 _) with (2 := H1).
      apply new_grid_reals_ok; lra. }
  split.
  { assert (Hf : frame (fun _ => True) (new_grid [3;3] (XFin 1 : XR)) g2).
    { apply frame_trans with (g2 := g1); eapply setArrivalTime_frame; eauto. }
    apply (frame_free _ _ _ _ Hf). apply new_grid_free; [apply XR_laws|exact Hp|reflexivity|cbn; lia]. }
  split; [apply dmins_spec; [exact Hp|cbn; lia]|].
  unfold dmins, dmin. cbn. rewrite !T2. cbn. rewrite ?T2. reflexivity.
Qed.

(** C11: the minima used are a part of the upwind values; the value returned is
    strictly larger than each of them, and the quadratic holds with equality. *)
Theorem C11_update_is_causal :
  forall dims (g : grid XR) i ms, exact_grid dims g ->
  0 <= i < box_size dims -> free g i -> minima dims (times g) i ms ->
  upwind_values (times g i) ms <> [] ->
  exists u used rest, solveEikonal g i = Ok (XFin u) /\
    Permutation (upwind_values (times g i) ms) (used ++ rest) /\ used <> [] /\
    (forall t, In t used -> t < u)%R /\
    Rsum (map (fun t => Rsqr (u - t)) used) = (slow g i * slow g i)%R /\
    (forall t, In t rest -> u - Rmargin < t)%R.
Proof. intros dims g i ms [H1 [H2 [H3 [H4 H5]]]]. apply update_causal; assumption. Qed.
Print Assumptions C11_update_is_causal.

(** Whenever the loop evaluates the quadratic on a prefix of the sorted values,
    the result is a real above all of them: the infinity escape is never taken. *)
Theorem C11_discriminant_never_negative :
  forall h v ts p r, (0 < h)%R -> (0 < v)%R ->
  evaluated (N := XR) (XFin h) (XFin v) (map XFin ts) p r ->
  exists u, solveEikonalNDims (XFin h : XR) (XFin v) p = XFin u /\
            forall t, In t p -> exists s, t = XFin s /\ (s < u)%R.
Proof. exact evaluated_finite. Qed.
Print Assumptions C11_discriminant_never_negative.

Example C11_case : evaluated (N := XR) (XFin 1) (XFin 1) (map XFin [2; 5/2]%R) [XFin 2; XFin (5/2)]%R [].
Proof.
  apply (ev_next (N := XR) (XFin 1) (XFin 1) (map XFin [2; 5/2]%R) [XFin 2%R] (XFin (5/2)) []).
  - apply (ev_start (N := XR)). cbn. replace (Rltb 2 (5/2)) with true; [reflexivity|].
    symmetry. apply Rltb_true. lra.
  - rewrite xr_margin. cbn. replace (Reqb 1 0) with false by (symmetry; apply Reqb_false; lra).
    cbn. apply Rltb_false. unfold Rmargin. lra.
Qed.

(** C12: infinity is returned exactly when no neighbour of the cell has a finite
    time strictly below the cell's own. *)
Theorem C12_infinite_iff_no_upwind_neighbour :
  forall dims (g : grid XR) i, exact_grid dims g -> 0 <= i < box_size dims -> free g i ->
  exists u, solveEikonal g i = Ok u /\
    (nisinf u = true <-> forall j r, adjacent dims i j -> times g j = Some r ->
                                     lower_than (times g i) r = false) /\
    (nisinf u = false -> exists x, u = XFin x).
Proof. intros dims g i [H1 [H2 [H3 [H4 H5]]]]. apply update_infinite; assumption. Qed.
Print Assumptions C12_infinite_iff_no_upwind_neighbour.

Example C12_case : exists g : grid XR, exact_grid [3;3] g /\ free g 4.
Proof. destruct C10_case as [g [ms [H1 [H2 _]]]]. exists g. auto. Qed.

(** C13: in binary64, with spacing and velocity 1 and neighbour times 1e8 and
    1e8+0.5, the result is lower than the second time although that time is
    lower than the one-dimensional solution 1e8+1 (so it is used). *)
Theorem C13_float_causality_refuted :
  exists (g : grid F64) (u t1 t2 : F64),
    grid_ok [2;2] g /\ free g 0 /\ adjacent [2;2] 0 1 /\ adjacent [2;2] 0 2 /\
    time_is g 1 t1 /\ time_is g 2 t2 /\ is_finite (t1 : f64) = true /\ is_finite (t2 : f64) = true /\
    solveEikonal g 0 = Ok u /\
    nltb t2 (nadd t1 (ndiv (g_leaf g) n1)) = true /\ nltb u t2 = true.
Proof.
  exists c13_grid, c13_u, (c13_t 1), (c13_t 2).
  split; [split; vm_compute; reflexivity|].
  split.
  { unfold free.
    assert (H : match getCell c13_grid 0 with Ok c => isOccupied c | _ => true end = false)
      by (vm_compute; reflexivity).
    destruct (getCell c13_grid 0) as [c|]; [|discriminate]. exists c. auto. }
  assert (Hp : proper [2;2]) by (repeat constructor; lia).
  split; [apply nbrs_spec; [exact Hp|cbn; lia|vm_compute; auto]|].
  split; [apply nbrs_spec; [exact Hp|cbn; lia|vm_compute; auto]|].
  assert (Ht : forall i, (match getArrivalTime c13_grid i with Ok _ => true | _ => false end) = true ->
                         time_is c13_grid i (c13_t i)).
  { intros i H. unfold time_is, c13_t. destruct (getArrivalTime c13_grid i); [reflexivity|discriminate]. }
  split; [apply Ht; vm_compute; reflexivity|].
  split; [apply Ht; vm_compute; reflexivity|].
  split; [vm_compute; reflexivity|]. split; [vm_compute; reflexivity|].
  split.
  { unfold c13_u. assert (H : (match solveEikonal c13_grid 0 with Ok _ => true | _ => false end) = true)
      by (vm_compute; reflexivity).
    destruct (solveEikonal c13_grid 0); [reflexivity|discriminate]. }
  split; vm_compute; reflexivity.
Qed.
Print Assumptions C13_float_causality_refuted.

(** With one usable dimension the result is never below the neighbour. [ms] are
    the per-dimension minima; exactly one, t, is finite and below the cell. *)
Theorem C13_float_causality_one_dimension :
  forall (g : grid F64) i ms c t,
  mapM (getMinValueInDim g i) (seq 0 (length (s_dims (g_sh g)))) = Ok ms ->
  getCell g i = Ok c -> filter (fun m => negb (nisinf m) && nltb m (c_val c)) ms = [t] ->
  is_finite (g_leaf g : f64) = true -> nltb n0 (g_leaf g) = true ->
  is_finite (c_occ c : f64) = true -> nltb n0 (c_occ c) = true ->
  exists u, solveEikonal g i = Ok u /\ nltb u t = false.
Proof. exact one_dim_update_causal. Qed.
Print Assumptions C13_float_causality_one_dimension.

(** in the grid above, cell 3's update has two dimensions, cell 0's too; with only
    cell 1 set there is one usable dimension *)
Example C13_case :
  match setArrivalTime (new_grid [2;2] (n1 : F64)) 1 (nofZ 7) with
  | Ok g => match mapM (getMinValueInDim g 0) (seq 0 2), getCell g 0 with
            | Ok ms, Ok c => (Z.of_nat (length (filter (fun m => negb (nisinf m) && nltb m (c_val c)) ms)) =? 1)
                             && nltb n0 (c_occ c)
            | _, _ => false
            end
  | _ => false
  end = true.
Proof. vm_compute. reflexivity. Qed.

(** C14: the update depends only on the multiset of minima, for exact reals and
    for binary64 (where only NaN and minus zero are excluded). *)
Theorem C14_dimension_order_irrelevant_exact :
  forall (g g' : grid XR) i i' ms ms' c c',
  mapM (getMinValueInDim g i) (seq 0 (length (s_dims (g_sh g)))) = Ok ms ->
  mapM (getMinValueInDim g' i') (seq 0 (length (s_dims (g_sh g')))) = Ok ms' ->
  Permutation ms ms' -> Forall (fun m => m <> XNaN) ms ->
  getCell g i = Ok c -> getCell g' i' = Ok c' ->
  c_val c = c_val c' -> c_occ c = c_occ c' -> g_leaf g = g_leaf g' ->
  solveEikonal g i = solveEikonal g' i'.
Proof.
  intros g g' i i' ms ms' c c'. apply (update_order_independent XR_laws (fun m => m <> XNaN)).
  intros x y Hx Hy. apply xr_total; assumption.
Qed.
Print Assumptions C14_dimension_order_irrelevant_exact.

Theorem C14_dimension_order_irrelevant_binary64 :
  forall (g g' : grid F64) i i' ms ms' c c',
  mapM (getMinValueInDim g i) (seq 0 (length (s_dims (g_sh g)))) = Ok ms ->
  mapM (getMinValueInDim g' i') (seq 0 (length (s_dims (g_sh g')))) = Ok ms' ->
  Permutation ms ms' -> Forall plain ms ->
  getCell g i = Ok c -> getCell g' i' = Ok c' ->
  c_val c = c_val c' -> c_occ c = c_occ c' -> g_leaf g = g_leaf g' ->
  solveEikonal g i = solveEikonal g' i'.
Proof.
  intros g g' i i' ms ms' c c'. apply (update_order_independent F64_laws plain).
  intros x y Hx Hy. apply f64_total; assumption.
Qed.
Print Assumptions C14_dimension_order_irrelevant_binary64.

(** transposing a 2x3 grid: cell 1 of the 2x3 grid and cell 3 of the 3x2 grid
    see the same minima in opposite order *)
Example C14_case :
  match setArrivalTime (new_grid [2;3] (n1 : F64)) 0 (nofZ 1) with
  | Ok a => match setArrivalTime a 3 (nofZ 2) with
            | Ok g => match setArrivalTime (new_grid [3;2] (n1 : F64)) 0 (nofZ 1) with
              | Ok b => match setArrivalTime b 4 (nofZ 2) with
                | Ok g' => match mapM (getMinValueInDim g 1) (seq 0 2), mapM (getMinValueInDim g' 3) (seq 0 2) with
                           | Ok [x;y], Ok [x';y'] => neqb x y' && neqb y x' && negb (neqb x y)
                           | _, _ => false
                           end
                | _ => false end
              | _ => false end
            | _ => false end
  | _ => false
  end = true.
Proof. vm_compute. reflexivity. Qed.

(** Prop_Local.v - property theorems C105-C107: how arrival times depend on the velocities,
    which cells they depend on, and their values on open ground. *)
From Coq Require Import Reals Lra Psatz Permutation.
From Flocq Require Import Core IEEE754.BinarySingleNaN.
From Verif Require Import Base BaseFacts Num NumXR NumF64 NumLaws Grid GridFacts GridUpd GridMore Spec Obs Eikonal
  FMMModel HeapRef HeapLaws SweepModel QueueModel FMMStruct EikR Solution XGrid FMMAbs Relax Exact Evolve Bound ExactMore ExactLocal Examples
  FloatOps FloatUpd FloatAbs FloatGrid Prop_FMM Prop_Sweep Prop_Bound Prop_Heap Prop_Float Prop_FloatAll Prop_Travel.
Open Scope Z_scope.

(** ** Specification (blocks of cells and the number of steps between two cells are [in_block]
    and [manhattan] in ExactLocal.v) *)

(** every cell that can be crossed in [g] can be crossed in [g'], taking at most [k] times as long *)
Definition slower_by (k : R) (g g' : grid XR) : Prop :=
  exists h, g_leaf g = XFin h /\ g_leaf g' = XFin h /\
  forall i c, getCell g i = Ok c -> isOccupied c = false ->
    exists c' v v', getCell g' i = Ok c' /\ isOccupied c' = false /\ c_occ c = XFin v /\ c_occ c' = XFin v' /\ (v <= k * v')%R.

(** [g'] is [g] but for cells to which [late] applies, where it may be slower or have obstacles *)
Definition same_but (late : Z -> Prop) (g g' : grid XR) : Prop :=
  g_leaf g' = g_leaf g /\
  forall i c, getCell g i = Ok c -> exists c', getCell g' i = Ok c' /\
    (c_occ c' = c_occ c \/ late i /\ exists v v', c_occ c = XFin v /\ c_occ c' = XFin v' /\ (v' <= v)%R).

Lemma velocity_pos (g : grid XR) i c v : reals_ok g -> getCell g i = Ok c -> isOccupied c = false -> c_occ c = XFin v -> (0 < v)%R.
Proof. intros Hr Hc Ho Ev. destruct (free_speed g i c Hr Hc Ho) as [w [Ew Hw]]. rewrite Ev in Ew. injection Ew as ->. exact Hw. Qed.

Lemma slower_slow k dims g g' init init' : (0 < k)%R -> exact_problem dims g init -> exact_problem dims g' init' -> slower_by k g g' ->
  forall i, free g i -> free g' i /\ (slow g' i <= k * slow g i)%R.
Proof.
  intros Hk [_ [_ [Hr _]]] [_ [_ [Hr' _]]] [h [El [El' H]]] i [c [Hc Ho]]. destruct (H i c Hc Ho) as [c' [v [v' [Hc' [Ho' [Ev [Ev' Hle]]]]]]].
  split; [exists c'; auto|]. pose proof (velocity_pos g i c v Hr Hc Ho Ev) as Hv. pose proof (velocity_pos g' i c' v' Hr' Hc' Ho' Ev') as Hv'.
  unfold slow. rewrite El, El', Hc, Hc', Ev, Ev'. destruct Hr as [[h0 [Eh Hh]] _]. rewrite El in Eh. injection Eh as <-.
  apply Rmult_le_reg_r with (v * v')%R; [nra|]. replace (h / v' * (v * v'))%R with (h * v)%R by (field; lra).
  replace (k * (h / v) * (v * v'))%R with (h * (k * v'))%R by (field; lra). apply Rmult_le_compat_l; lra.
Qed.

Lemma same_slow late dims g g' init init' : exact_problem dims g init -> exact_problem dims g' init' -> same_but late g g' ->
  (forall i, free g' i -> free g i /\ (slow g i <= slow g' i)%R) /\
  (forall i, ~ late i -> free g i -> free g' i /\ slow g' i = slow g i).
Proof.
  intros [_ [[Hg _] [Hr _]]] [_ [[Hg' _] [Hr' _]]] [El H]. pose proof Hr as [[h [Eh Hh]] _]. split.
  - intros i [c' [Hc' Ho']]. pose proof (getCell_range _ _ _ Hc') as Hi. destruct Hg as [Hsh Hlen], Hg' as [_ Hlen'].
    destruct (getCell_in dims g i (conj Hsh Hlen) ltac:(lia)) as [c Hc]. destruct (H i c Hc) as [c2 [Hc2 K]]. assert (c2 = c') by congruence. subst c2.
    destruct K as [E|[_ [v [v' [Ev [Ev' L]]]]]].
    + split; [exists c; split; [exact Hc|]; unfold isOccupied in *; rewrite <- E; exact Ho'|]. unfold slow. rewrite El, Hc, Hc', E. lra.
    + assert (Ho : isOccupied c = false).
      { unfold isOccupied in *. rewrite Ev', xr_margin in Ho'. rewrite Ev, xr_margin. cbn [nltb XR xltb] in *. apply Rltb_false in Ho'. apply Rltb_false. lra. }
      split; [exists c; auto|]. pose proof (velocity_pos g' i c' v' Hr' Hc' Ho' Ev') as Hv'. unfold slow. rewrite El, Eh, Hc, Hc', Ev, Ev'.
      unfold Rdiv. apply Rmult_le_compat_l; [lra|]. apply Rinv_le_contravar; lra.
  - intros i Hn [c [Hc Ho]]. destruct (H i c Hc) as [c' [Hc' [E|[K _]]]]; [|contradiction].
    split; [exists c'; split; [exact Hc'|]; unfold isOccupied in *; rewrite E; exact Ho|]. unfold slow. rewrite El, Hc, Hc', E. reflexivity.
Qed.

(** ** C105 *)
Theorem C105_small_changes_of_the_velocities :
  forall dims k (g g' : grid XR) init h T' i t,
  (0 < k)%R -> exact_problem dims g init -> exact_problem dims g' init -> slower_by k g g' ->
  solver_run g init h -> times h i = Some t -> result_of dims g' init T' ->
  exists t', T' i = Some t' /\ (t' <= k * t + xerr dims)%R.
Proof.
  intros dims k g g' init h T' i t Hk HP HP' He Hrun Ht HT'.
  destruct (C52_exact_solution_exists_and_is_unique _ _ _ HP) as [X [HX _]].
  destruct (C52_exact_solution_exists_and_is_unique _ _ _ HP') as [X' [HX' _]].
  destruct (C53_no_solver_is_below_the_exact_solution dims g init X h i t HP HX Hrun Ht) as [x [Hx Hle]].
  pose proof (problem_proper _ _ _ HP) as Hp.
  destruct (exact_stable dims Hp k init (free g) (free g') (slow g) (slow g') X X' Hk (problem_slow _ _ _ HP) (problem_slow _ _ _ HP')) with (i := i) (t := x) as [x' [Hx' Hle']]; auto.
  - destruct HP as [_ [_ [_ [_ Hr]]]]. exact Hr.
  - eapply slower_slow; eauto.
  - pose proof (close_result dims g' init T' X' i HP' HT' HX' (ex_range _ _ _ _ _ HX i x Hx)) as C. rewrite Hx' in C.
    destruct (T' i) as [t'|]; [|destruct C]. exists t'. split; [reflexivity|]. apply (Rmult_le_compat_l k) in Hle; lra.
Qed.
Print Assumptions C105_small_changes_of_the_velocities.

(** ** C106 *)
(** changing the map only where [T], a complete result, is later than [t0] (plus the accuracy)
    does not change the times up to [t0] *)
Theorem C106_later_cells_do_not_matter :
  forall dims (g g' : grid XR) init T T' t0 i t,
  exact_problem dims g init -> exact_problem dims g' init ->
  result_of dims g init T -> result_of dims g' init T' ->
  same_but (fun k => match T k with Some s => (t0 + xerr dims < s)%R | None => True end) g g' ->
  T i = Some t -> (t <= t0)%R ->
  exists t', T' i = Some t' /\ (Rabs (t' - t) <= xerr dims)%R.
Proof.
  intros dims g g' init T T' t0 i t HP HP' HT HT' He Ht Hl.
  destruct (C52_exact_solution_exists_and_is_unique _ _ _ HP) as [X [HX _]].
  destruct (C52_exact_solution_exists_and_is_unique _ _ _ HP') as [X' [HX' _]].
  pose proof (problem_proper _ _ _ HP) as Hp. destruct (same_slow _ _ _ _ _ _ HP HP' He) as [K1 K2].
  assert (Hr : forall k, In k init -> 0 <= k < box_size dims) by (destruct HP as [_ [_ [_ [_ R0]]]]; exact R0).
  destruct (result_run _ _ _ _ HT) as [h [Hrun ET]].
  assert (Hx : exists x, X i = Some x /\ (x <= t)%R) by (apply (C53_no_solver_is_below_the_exact_solution dims g init X h i t HP HX Hrun); rewrite <- ET; exact Ht).
  destruct Hx as [x [Hx Hxl]].
  assert (E : X' i = Some x).
  { apply (exact_causal dims Hp t0 init (free g) (free g') (slow g) (slow g') X X' (problem_slow _ _ _ HP) (problem_slow _ _ _ HP') Hr K1) with (i := i) (t := x); auto; [|lra].
    intros k s Hk Hks Hn. destruct (ex_at dims Hp _ _ _ _ k s HX Hk Hn) as [Hki [Hkf _]]. apply K2; [|exact Hkf].
    pose proof (close_result dims g init T X k HP HT HX Hki) as C. rewrite Hk in C. destruct (T k) as [u|]; [lra|destruct C]. }
  pose proof (ex_range _ _ _ _ _ HX i x Hx) as Hi.
  pose proof (close_result dims g init T X i HP HT HX Hi) as C. rewrite Hx, Ht in C.
  pose proof (close_result dims g' init T' X' i HP' HT' HX' Hi) as C'. rewrite E in C'.
  destruct (T' i) as [t'|]; [|destruct C']. exists t'. split; [reflexivity|]. apply Rabs_le. lra.
Qed.
Print Assumptions C106_later_cells_do_not_matter.

(** ** C107 *)
Theorem C107_open_ground :
  forall dims (g : grid XR) ss cs spacing v T,
  in_box dims ss -> in_box dims cs -> exact_problem dims g [cell_number dims ss] ->
  g_leaf g = XFin spacing ->
  (forall i c w, getCell g i = Ok c -> c_occ c = XFin w -> w <= v)%R ->
  (forall xs, in_block ss cs xs -> exists c, getCell g (cell_number dims xs) = Ok c /\ c_occ c = XFin v /\ isOccupied c = false) ->
  result_of dims g [cell_number dims ss] T ->
  exists t, T (cell_number dims cs) = Some t /\
    (spacing / v * sqrt (sqdist cs ss) <= t <= spacing / v * IZR (manhattan cs ss) + xerr dims)%R.
Proof.
  intros dims g ss cs spacing v T Hss Hcs HP Hsp Hmax Hblock HT.
  destruct (C52_exact_solution_exists_and_is_unique _ _ _ HP) as [X [HX _]]. pose proof (problem_proper _ _ _ HP) as Hp.
  pose proof HP as [_ [_ [Hr _]]]. pose proof Hr as [[h0 [Eh Hh]] _]. rewrite Hsp in Eh. injection Eh as <-.
  assert (Hv : (0 < v)%R).
  { destruct (Hblock cs (block_corner _ _ _ Hss Hcs)) as [c [Hc [Ev Ho]]]. eapply velocity_pos; eauto. }
  destruct (exact_open_ground dims (fun i => In i [cell_number dims ss]) (free g) (slow g) (spacing / v) X ss Hp (problem_slow _ _ _ HP) (in_one_dec _) Hss (or_introl eq_refl) HX) with (cs := cs) as [x [Hx Lx]]; auto.
  - left. apply Rdiv_lt_0_compat; assumption.
  - intros xs _ Hxs _. destruct (Hblock xs Hxs) as [c [Hc [Ev Ho]]]. split; [exists c; auto|]. unfold slow. rewrite Hsp, Hc, Ev. lra.
  - pose proof (close_result dims g _ T X _ HP HT HX (cell_number_range dims cs Hcs)) as C. rewrite Hx in C.
    destruct (T (cell_number dims cs)) as [t|] eqn:Et; [|destruct C]. exists t. split; [reflexivity|]. split; [|lra].
    destruct (result_run _ _ _ _ HT) as [h [Hrun ET]]. rewrite ET in Et.
    pose proof (C104_no_faster_than_the_straight_line dims g ss h cs t spacing v Hss Hcs HP Hsp Hmax Hv Hrun Et) as K.
    replace (spacing / v * sqrt (sqdist cs ss))%R with (spacing * sqrt (sqdist cs ss) / v)%R by (field; lra). exact K.
Qed.
Print Assumptions C107_open_ground.

(** along a coordinate axis both bounds are the distance *)
Lemma axis_distances cs ss : length cs = length ss -> (exists k, forall d, d <> k -> nth d cs 0 = nth d ss 0) ->
  (sqrt (sqdist cs ss) = IZR (manhattan cs ss))%R.
Proof.
  intros Hl [k Hk].
  assert (E : (sqdist cs ss = IZR (manhattan cs ss) * IZR (manhattan cs ss))%R).
  { revert ss k Hl Hk. induction cs as [|c cs IH]; intros [|e ss] k Hl Hk; try discriminate; [cbn; lra|]. cbn [sqdist manhattan].
    destruct k as [|k].
    - assert (cs = ss).
      { apply (nth_ext _ _ 0 0); [cbn in Hl; lia|]. intros n _. apply (Hk (S n)). lia. }
      subst ss. rewrite manhattan_same, sqdist_same, Z.add_0_r, abs_IZR, minus_IZR. rewrite <- Rabs_mult, Rabs_pos_eq by (pose proof (Rle_0_sqr (IZR c - IZR e)) as Q; unfold Rsqr in Q; exact Q). ring.
    - pose proof (Hk O ltac:(lia)) as E0. cbn in E0. subst e. rewrite Z.sub_diag. cbn [Z.abs Z.add]. rewrite (IH ss k) by (cbn in Hl; try lia; intros d Hd; apply (Hk (S d)); lia). ring. }
  rewrite E. apply sqrt_square. apply (IZR_le 0). apply manhattan_nonneg.
Qed.

Theorem C107_straight_corridors_are_exact :
  forall dims (g : grid XR) ss cs spacing v T,
  in_box dims ss -> in_box dims cs -> exact_problem dims g [cell_number dims ss] ->
  (exists k, forall d, d <> k -> nth d cs 0 = nth d ss 0) ->
  g_leaf g = XFin spacing ->
  (forall i c w, getCell g i = Ok c -> c_occ c = XFin w -> w <= v)%R ->
  (forall xs, in_block ss cs xs -> exists c, getCell g (cell_number dims xs) = Ok c /\ c_occ c = XFin v /\ isOccupied c = false) ->
  result_of dims g [cell_number dims ss] T ->
  exists t, T (cell_number dims cs) = Some t /\
    (0 <= t - IZR (manhattan cs ss) * spacing / v <= xerr dims)%R.
Proof.
  intros dims g ss cs spacing v T Hss Hcs HP Hax Hsp Hmax Hblock HT.
  destruct (C107_open_ground dims g ss cs spacing v T Hss Hcs HP Hsp Hmax Hblock HT) as [t [Ht [L1 L2]]]. exists t. split; [exact Ht|].
  rewrite axis_distances in L1; [|rewrite <- (in_box_length _ _ Hcs), <- (in_box_length _ _ Hss); reflexivity|exact Hax].
  replace (IZR (manhattan cs ss) * spacing / v)%R with (spacing / v * IZR (manhattan cs ss))%R by (unfold Rdiv; ring). lra.
Qed.
Print Assumptions C107_straight_corridors_are_exact.

(** ** In doubles *)
Definition slower_by64 (k : R) (g g' : grid F64) : Prop :=
  forall i f, free g i -> cost g i f -> free g' i /\ exists f', cost g' i f' /\ (f' <= k * f)%R.

Definition same_but64 (late : Z -> Prop) (g g' : grid F64) : Prop :=
  (forall i f, free g' i -> cost g' i f -> free g i /\ exists f0, cost g i f0 /\ (f0 <= f)%R) /\
  (forall i f, ~ late i -> free g i -> cost g i f -> free g' i /\ cost g' i f).

Theorem C105_small_changes_doubles :
  forall dims k g g' init eb ea eb' ea' goal h h' i t,
  (0 < k)%R -> precise dims g init eb ea -> precise dims g' init eb' ea' -> slower_by64 k g g' ->
  any64 dims g init goal h -> arrives h i t -> complete64 dims g' init h' ->
  exists t', arrives h' i t' /\ ((1 - eb) * t' <= (1 + ea') * (k * t))%R.
Proof.
  intros dims k g g' init eb ea eb' ea' goal h h' i t Hk HP HP' He Hrun Ha Hrun'.
  destruct (precise_facts _ _ _ _ _ HP) as [_ [Hp [Hr [Hf [_ [X [HX [HA _]]]]]]]].
  destruct (precise_facts _ _ _ _ _ HP') as [Hea [_ [_ [Hf' [Hc' [X' [HX' [_ HB']]]]]]]].
  destruct (run_cell _ _ _ _ _ X goal h i t HP HX HA Hrun Ha) as [x [Hx [Hx0 [Hi [Ht0 Hle]]]]].
  destruct (exact_stable dims Hp k init (free g) (free g') (slow64 g) (slow64 g') X X' Hk (fun j Hj => proj1 (Hf j Hj)) (fun j Hj => proj1 (Hf' j Hj)) Hr) with (i := i) (t := x) as [x' [Hx' Hle']]; auto.
  { intros j Hj. destruct (Hf j Hj) as [_ Hc0]. destruct (He j _ Hj Hc0) as [K1 [f' [K2 K3]]]. split; [exact K1|]. destruct (Hc' j f' K2) as [E|E]; [rewrite <- E; exact K3|contradiction]. }
  specialize (HB' h' i Hrun' Hi). rewrite Hx' in HB'. destruct HB' as [t' [B1 [_ [B2 [_ B4]]]]]. exists t'. split; [exact B1|].
  eapply chain; [exact Hea|exact (ex_nonneg _ _ _ _ _ HX' i x' Hx')|exact Hle'|apply Rmult_le_pos; lra|exact B2| |exact B4].
  replace ((1 - eb) * (k * x))%R with (k * ((1 - eb) * x))%R by ring. apply Rmult_le_compat_l; lra.
Qed.
Print Assumptions C105_small_changes_doubles.

(** [t0] separates the cells that count from the late ones: a late cell is one that the complete
    run [h] reaches later than (1+ea)*t0, or not at all *)
Theorem C106_later_cells_doubles :
  forall dims g g' init eb ea eb' ea' h h' t0 i t,
  precise dims g init eb ea -> precise dims g' init eb' ea' ->
  complete64 dims g init h -> complete64 dims g' init h' ->
  same_but64 (fun k => forall s, arrives h k s -> ((1 + ea) * t0 < s)%R) g g' ->
  arrives h i t -> (t <= (1 - eb) * t0)%R -> (eb < 1)%R ->
  exists t', arrives h' i t' /\ ((1 - eb') * t <= (1 + ea) * t')%R /\ ((1 - eb) * t' <= (1 + ea') * t)%R.
Proof.
  intros dims g g' init eb ea eb' ea' h h' t0 i t HP HP' Hrun Hrun' [He1 He2] Ha Hl Heb.
  destruct (precise_facts _ _ _ _ _ HP) as [Hea [Hp [Hr [Hf [Hc [X [HX [HA HB]]]]]]]].
  destruct (precise_facts _ _ _ _ _ HP') as [Hea' [_ [_ [Hf' [Hc' [X' [HX' [HA' HB']]]]]]]].
  destruct (run_cell _ _ _ _ _ X noGoal h i t HP HX HA (or_introl (complete_run _ _ _ _ Hrun)) Ha) as [x [Hx [Hx0 [Hi [Ht0 Hle]]]]].
  assert (Hxl : (x <= t0)%R) by (apply Rmult_le_reg_l with (1 - eb)%R; lra).
  assert (E : X' i = Some x).
  { apply (exact_causal dims Hp t0 init (free g) (free g') (slow64 g) (slow64 g') X X' (fun j Hj => proj1 (Hf j Hj)) (fun j Hj => proj1 (Hf' j Hj)) Hr) with (i := i) (t := x); auto.
    - intros j Hj. destruct (Hf' j Hj) as [_ Hcj]. destruct (He1 j _ Hj Hcj) as [K1 [f0 [K2 K3]]]. split; [exact K1|]. destruct (Hc j f0 K2) as [K4|K4]; [rewrite <- K4; exact K3|contradiction].
    - intros k s Hk Hks Hn. destruct (ex_at dims Hp _ _ _ _ k s HX Hk Hn) as [Hki [Hkf _]].
      assert (Hnl : ~ (forall s', arrives h k s' -> ((1 + ea) * t0 < s')%R)).
      { intros K. specialize (HB h k Hrun Hki). rewrite Hk in HB. destruct HB as [u [B1 [_ [_ [_ B4]]]]]. specialize (K u B1).
        assert ((1 + ea) * s <= (1 + ea) * t0)%R by (apply Rmult_le_compat_l; lra). lra. }
      destruct (He2 k _ Hnl Hkf (proj2 (Hf k Hkf))) as [K1 K2]. split; [exact K1|]. destruct (Hc' k _ K2) as [K3|K3]; [symmetry; exact K3|contradiction]. }
  specialize (HB h i Hrun Hi). rewrite Hx in HB. destruct HB as [u [B1 [Bu [B2 [B3 B4]]]]]. assert (t = u) by (apply Bu; exact Ha). subst u.
  specialize (HB' h' i Hrun' Hi). rewrite E in HB'. destruct HB' as [t' [B1' [_ [B2' [B3' B4']]]]]. exists t'. split; [exact B1'|]. split.
  - eapply chain; [exact Hea|exact Hx0|apply Rle_refl|exact B2'|exact B2|exact B3'|exact B4].
  - eapply chain; [exact Hea'|exact Hx0|apply Rle_refl|exact B2|exact B2'|exact B3|exact B4'].
Qed.
Print Assumptions C106_later_cells_doubles.

Theorem C107_open_ground_doubles :
  forall dims g ss cs f eb ea h,
  in_box dims ss -> in_box dims cs -> precise dims g [cell_number dims ss] eb ea ->
  (forall i w, free g i -> cost g i w -> f <= w)%R -> (0 < f)%R ->
  (forall xs, in_block ss cs xs -> free g (cell_number dims xs) /\ cost g (cell_number dims xs) f) ->
  complete64 dims g [cell_number dims ss] h ->
  exists t, arrives h (cell_number dims cs) t /\
    ((1 - eb) * (f * sqrt (sqdist cs ss)) <= t <= (1 + ea) * (f * IZR (manhattan cs ss)))%R.
Proof.
  intros dims g ss cs f eb ea h Hss Hcs HP Hmin Hf0 Hblock Hrun.
  destruct (precise_facts _ _ _ _ _ HP) as [Hea [Hp [Hr [Hf [Hc [X [HX [HA HB]]]]]]]].
  destruct (exact_open_ground dims (fun i => In i [cell_number dims ss]) (free g) (slow64 g) f X ss Hp (fun j Hj => proj1 (Hf j Hj)) (in_one_dec _) Hss (or_introl eq_refl) HX) with (cs := cs) as [x [Hx Lx]]; auto.
  - left. exact Hf0.
  - intros xs _ Hxs _. destruct (Hblock xs Hxs) as [K1 K2]. split; [exact K1|]. destruct (Hc _ _ K2) as [E|E]; [rewrite <- E; lra|contradiction].
  - specialize (HB h _ Hrun (cell_number_range dims cs Hcs)). rewrite Hx in HB. destruct HB as [t [B1 [_ [B2 [_ B4]]]]]. exists t. split; [exact B1|]. split.
    + eapply (C104_no_faster_than_the_straight_line_doubles dims g ss eb ea noGoal h cs t f); eauto. left. apply complete_run. exact Hrun.
    + eapply Rle_trans; [exact B4|]. apply Rmult_le_compat_l; lra.
Qed.
Print Assumptions C107_open_ground_doubles.

(** ** Cases *)
Definition l_half : grid XR := vmap [2;3] 1 [1;1;3;4;0;5]%R.
Example C105_case :
  exact_problem [2;3] t_map [0] /\ exact_problem [2;3] l_half [0] /\ separated [2;3] l_half [0] /\ slower_by 2 t_map l_half /\
  (exists h, solver_run t_map [0] h) /\ exists T', result_of [2;3] l_half [0] T'.
Proof.
  assert (P1 : exact_problem [2;3] t_map [0]) by (apply vmap_problem; [exact shape23|reflexivity|lra|apply one_point; cbn; lia]).
  assert (P2 : exact_problem [2;3] l_half [0]) by (apply vmap_problem; [exact shape23|reflexivity|lra|apply one_point; cbn; lia]).
  split; [exact P1|]. split; [exact P2|]. split; [apply separated_one|]. split; [|split].
  - exists 1%R. split; [reflexivity|]. split; [reflexivity|]. intros i c Hc Ho. apply vgrid_cell in Hc. destruct Hc as [Hi Hc]. cbn [length map] in Hi.
    assert (Hm : (0 < Rmargin < 1)%R) by (unfold Rmargin; lra).
    assert (Hi6 : 0 <= i < 6) by lia. clear Hi.
    six i; cbn in Hc; injection Hc as Hc; symmetry in Hc;
      match goal with |- context [getCell l_half ?k] =>
        destruct (vgrid_get [2;3] (XFin 1 : XR) (map XFin [1;1;3;4;0;5]%R : list XR) k _ eq_refl ltac:(lia) eq_refl) as [c' [Hc' Hv']] end;
      unfold isOccupied in Ho; rewrite Hc, xr_margin in Ho; cbn [nltb XR xltb] in Ho; apply Rltb_false in Ho; try (exfalso; lra);
      (eexists c', _, _; split; [exact Hc'|]; split; [unfold isOccupied; rewrite Hv', xr_margin; cbn [nltb XR xltb]; apply Rltb_false; lra|]; split; [exact Hc|]; split; [exact Hv'|lra]).
  - destruct (vmap_run _ _ _ P1 (separated_one _ _ _)) as [h [H _]]. eauto.
  - destruct (vmap_run _ _ _ P2 (separated_one _ _ _)) as [h [_ H]]. eauto.
Qed.

Definition l_open : grid XR := vmap [2;3] 1 [1;1;1;1;1;1]%R.
Definition l_shut : grid XR := vmap [2;3] 1 [1;1;1;1;1;0]%R.
Lemma l_open_cell i : 0 <= i < 6 -> exists c, getCell l_open i = Ok c /\ c_occ c = XFin 1 /\ isOccupied c = false.
Proof.
  intros Hi. destruct (vgrid_get [2;3] (XFin 1 : XR) (map XFin [1;1;1;1;1;1]%R : list XR) i (XFin 1) eq_refl ltac:(lia)) as [c [Hc Hv]].
  { six i; reflexivity. }
  exists c. split; [exact Hc|]. split; [exact Hv|]. unfold isOccupied. rewrite Hv, xr_margin. cbn [nltb XR xltb]. apply Rltb_false. unfold Rmargin. lra.
Qed.
Lemma l_open_problem : exact_problem [2;3] l_open [0].
Proof. apply vmap_problem; [exact shape23|reflexivity|lra|apply one_point; cbn; lia]. Qed.
Lemma l_open_max : forall i c w, getCell l_open i = Ok c -> c_occ c = XFin w -> (w <= 1)%R.
Proof.
  intros i c w Hc Hw. assert (Hi : 0 <= i < 6) by (apply vgrid_cell in Hc; cbn in Hc; lia).
  destruct (l_open_cell i Hi) as [c' [Hc' [E _]]]. assert (c' = c) by congruence. subst c'. rewrite E in Hw. injection Hw as <-. lra.
Qed.
Lemma l_open_block ss cs xs : in_box [2;3] ss -> in_box [2;3] cs -> in_block ss cs xs -> exists c, getCell l_open (cell_number [2;3] xs) = Ok c /\ c_occ c = XFin 1 /\ isOccupied c = false.
Proof.
  intros Hs Hc Hx. apply l_open_cell.
  assert (B : in_box [2;3] xs).
  { inversion Hs as [|? a ? ra Ha Hra]; subst. inversion Hra as [|? b ? rb Hb Hrb]; subst. inversion Hrb; subst.
    inversion Hc as [|? a' ? ra' Ha' Hra']; subst. inversion Hra' as [|? b' ? rb' Hb' Hrb']; subst. inversion Hrb'; subst.
    inversion Hx as [|? ? x ? ? rx Hx1 Hx2]; subst. inversion Hx2 as [|? ? y ? ? ry Hy1 Hy2]; subst. inversion Hy2; subst.
    constructor; [lia|]. constructor; [lia|]. constructor. }
  pose proof (cell_number_range _ _ B) as K. cbn [box_size fold_right] in K. lia.
Qed.

(** an open 2x3 map: the far corner is reached at time 2.2 or later, so closing it leaves the
    neighbour of the initial point at its time *)
Example C106_case :
  exact_problem [2;3] l_open [0] /\ separated [2;3] l_open [0] /\ exact_problem [2;3] l_shut [0] /\ separated [2;3] l_shut [0] /\
  obstacle l_shut 5 /\
  exists T, result_of [2;3] l_open [0] T /\ (exists T', result_of [2;3] l_shut [0] T') /\
    same_but (fun k => match T k with Some s => (3/2 + xerr [2;3]%Z < s)%R | None => True end) l_open l_shut /\
    exists t, T 1 = Some t /\ (t <= 3/2)%R.
Proof.
  assert (P1 := l_open_problem).
  assert (P2 : exact_problem [2;3] l_shut [0]) by (apply vmap_problem; [exact shape23|reflexivity|lra|apply one_point; cbn; lia]).
  assert (Hm : (0 < Rmargin <= / 1000)%R) by (unfold Rmargin; lra).
  assert (Hx : (xerr [2;3]%Z <= / 10)%R) by (unfold xerr; change (box_size [2;3]) with 6; lra).
  split; [exact P1|]. split; [apply separated_one|]. split; [exact P2|]. split; [apply separated_one|]. split.
  { destruct (vgrid_get [2;3] (XFin 1 : XR) (map XFin [1;1;1;1;1;0]%R : list XR) 5 _ eq_refl ltac:(lia) eq_refl) as [c [Hc Hv]].
    exists c. split; [exact Hc|]. unfold isOccupied. rewrite Hv, xr_margin. cbn [nltb XR xltb]. apply Rltb_true. lra. }
  destruct (vmap_run _ _ _ P1 (separated_one _ _ _)) as [h [Hrun HT]]. exists (times h). split; [exact HT|]. split; [|split].
  - destruct (vmap_run _ _ _ P2 (separated_one _ _ _)) as [h' [_ H]]. eauto.
  - split; [reflexivity|]. intros i c Hc. apply vgrid_cell in Hc. destruct Hc as [Hi Hc]. cbn [length map] in Hi.
    assert (Hi6 : 0 <= i < 6) by lia. clear Hi.
    six i; cbn in Hc; injection Hc as Hc; symmetry in Hc;
      match goal with |- context [getCell l_shut ?k] =>
        destruct (vgrid_get [2;3] (XFin 1 : XR) (map XFin [1;1;1;1;1;0]%R : list XR) k _ eq_refl ltac:(lia) eq_refl) as [c' [Hc' Hv']] end;
      exists c'; (split; [exact Hc'|]); first [left; congruence|right].
    split.
    + destruct (times h 5) as [s|] eqn:E; [|exact Logic.I].
      assert (B : in_box [2;3] [1;2]) by (constructor; [lia|constructor; [lia|constructor]]).
      assert (B0 : in_box [2;3] [0;0]) by (constructor; [lia|constructor; [lia|constructor]]).
      pose proof (C104_no_faster_than_the_straight_line [2;3] l_open [0;0] h [1;2] s 1 1 B0 B P1 eq_refl l_open_max ltac:(lra) Hrun E) as K.
      assert (Q : (2 <= sqrt (sqdist [1;2]%Z [0;0]%Z))%R).
      { replace (sqdist [1;2]%Z [0;0]%Z) with 5%R by (cbn [sqdist]; lra). apply sqrt_above; lra. }
      lra.
    + exists 1%R, 0%R. split; [exact Hc|]. split; [exact Hv'|lra].
  - assert (B : in_box [2;3] [1;0]) by (constructor; [lia|constructor; [lia|constructor]]).
    assert (B0 : in_box [2;3] [0;0]) by (constructor; [lia|constructor; [lia|constructor]]).
    destruct (C107_open_ground [2;3] l_open [0;0] [1;0] 1 1 (times h) B0 B P1 eq_refl l_open_max (fun xs => l_open_block _ _ xs B0 B) HT) as [t [Ht [_ L]]].
    exists t. split; [exact Ht|]. change (manhattan [1;0] [0;0]) with 1 in L. lra.
Qed.

Example C107_case : in_box [2;3] [0;0] /\ in_box [2;3] [1;2] /\ exact_problem [2;3] l_open [cell_number [2;3] [0;0]] /\
  (forall i c w, getCell l_open i = Ok c -> c_occ c = XFin w -> w <= 1)%R /\
  (forall xs, in_block [0;0] [1;2] xs -> exists c, getCell l_open (cell_number [2;3] xs) = Ok c /\ c_occ c = XFin 1 /\ isOccupied c = false) /\
  (exists T, result_of [2;3] l_open [cell_number [2;3] [0;0]] T) /\
  (exists k, forall d, d <> k -> nth d [0;2] 0 = nth d [0;0] 0) /\ manhattan [1;2] [0;0] = 3.
Proof.
  assert (B : in_box [2;3] [1;2]) by (constructor; [lia|constructor; [lia|constructor]]).
  assert (B0 : in_box [2;3] [0;0]) by (constructor; [lia|constructor; [lia|constructor]]).
  split; [exact B0|]. split; [exact B|]. split; [exact l_open_problem|]. split; [exact l_open_max|]. split; [intros xs; apply l_open_block; assumption|].
  split; [|split; [|reflexivity]].
  - destruct (vmap_run _ _ _ l_open_problem (separated_one _ _ _)) as [h [_ H]]. eauto.
  - exists 1%nat. intros d Hd. destruct d as [|[|d]]; [reflexivity|contradiction|]. cbn. destruct d as [|[|d]]; reflexivity.
Qed.

Definition d_half : list Z := [1;1;1;1;0;2;1;1;1].
Definition d_open : list Z := [1;1;1;1;1;1;1;1;1].
Definition d_shut : list Z := [1;1;1;1;1;1;1;1;0].

Example C105_case_doubles :
  precise [3;3] (dmap d_map) [0] (err_below [3;3] (1/4) 1 9) (err_above [3;3] (1/4) 1 9) /\
  precise [3;3] (dmap d_half) [0] (err_below [3;3] (1/4) 1 9) (err_above [3;3] (1/4) 1 9) /\
  slower_by64 2 (dmap d_map) (dmap d_half) /\
  (exists h, any64 [3;3] (dmap d_map) [0] noGoal h) /\ exists h', complete64 [3;3] (dmap d_half) [0] h'.
Proof.
  assert (S1 : speeds d_map) by solve_speeds. assert (S2 : speeds d_half) by solve_speeds.
  split; [apply dmap_precise; [exact S1|exact corner]|]. split; [apply dmap_precise; [exact S2|exact corner]|]. split; [|split].
  - intros i f Hi Hf. pose proof (dmap_range _ i S1 Hi) as Hr. nine i;
      match goal with H : free (dmap d_map) ?k |- _ =>
        match eval vm_compute in (nth_error d_map (Z.to_nat k), nth_error d_half (Z.to_nat k)) with (Some ?z, Some ?z') =>
          pose proof (proj1 (dmap_free d_map k z eq_refl S1 ltac:(lia) eq_refl) H) as Hz;
          pose proof (proj1 (dmap_cost d_map k z f eq_refl ltac:(lia) ltac:(lia) eq_refl) Hf) as Ef;
          first [exfalso; lia | split; [apply (dmap_free d_half k z' eq_refl S2 ltac:(lia) eq_refl); lia|];
          exists (1 / IZR z')%R; split; [apply (dmap_cost d_half k z' _ eq_refl ltac:(lia) ltac:(lia) eq_refl); reflexivity|rewrite Ef; lra]] end end.
  - destruct (dmap_run d_map [0] S1 corner (separated_one _ _ _)) as [h [_ H]]. eauto.
  - destruct (dmap_run d_half [0] S2 corner (separated_one _ _ _)) as [h [H _]]. eauto.
Qed.

Lemma d_open_free i : 0 <= i < 9 -> free (dmap d_open) i /\ cost (dmap d_open) i 1.
Proof.
  intros Hi. assert (E : nth_error d_open (Z.to_nat i) = Some 1) by (nine i; reflexivity).
  split; [apply (dmap_free d_open i 1 eq_refl ltac:(solve_speeds) ltac:(lia) E); lia|].
  apply (dmap_cost d_open i 1 1%R eq_refl ltac:(lia) ltac:(lia) E). lra.
Qed.
Lemma d_open_cost i f : 0 <= i < 9 -> cost (dmap d_open) i f -> f = 1%R.
Proof.
  intros Hi Hf. assert (E : nth_error d_open (Z.to_nat i) = Some 1) by (nine i; reflexivity).
  apply (dmap_cost d_open i 1 f eq_refl ltac:(lia) ltac:(lia) E) in Hf. lra.
Qed.
Lemma block33 cs xs : in_box [3;3] cs -> in_block [0;0] cs xs -> 0 <= cell_number [3;3] xs < 9.
Proof.
  intros Hc Hx. assert (B : in_box [3;3] xs).
  { inversion Hc as [|? a' ? ra' Ha' Hra']; subst. inversion Hra' as [|? b' ? rb' Hb' Hrb']; subst. inversion Hrb'; subst.
    inversion Hx as [|? ? x ? ? rx Hx1 Hx2]; subst. inversion Hx2 as [|? ? y ? ? ry Hy1 Hy2]; subst. inversion Hy2; subst.
    constructor; [lia|]. constructor; [lia|]. constructor. }
  exact (cell_number_range _ _ B).
Qed.

(** every hypothesis of C107 on an open 3x3 map of doubles, to its far corner *)
Example C107_case_doubles :
  precise [3;3] (dmap d_open) [cell_number [3;3] [0;0]] (err_below [3;3] (1/4) 1 9) (err_above [3;3] (1/4) 1 9) /\
  (forall i w, free (dmap d_open) i -> cost (dmap d_open) i w -> 1 <= w)%R /\
  (forall xs, in_block [0;0] [2;2] xs -> free (dmap d_open) (cell_number [3;3] xs) /\ cost (dmap d_open) (cell_number [3;3] xs) 1) /\
  exists h, complete64 [3;3] (dmap d_open) [cell_number [3;3] [0;0]] h.
Proof.
  assert (S1 : speeds d_open) by solve_speeds.
  split; [apply dmap_precise; [exact S1|exact corner]|]. split; [|split].
  - intros i w Hi Hw. rewrite (d_open_cost i w (dmap_range _ i S1 Hi) Hw). lra.
  - intros xs Hxs. apply d_open_free. apply (block33 [2;2]); [|exact Hxs]. constructor; [lia|constructor; [lia|constructor]].
  - destruct (dmap_run d_open [0] S1 corner (separated_one _ _ _)) as [h [H _]]. eauto.
Qed.

Example C106_case_doubles : exists h h' t,
  precise [3;3] (dmap d_open) [0] (err_below [3;3] (1/4) 1 9) (err_above [3;3] (1/4) 1 9) /\
  precise [3;3] (dmap d_shut) [0] (err_below [3;3] (1/4) 1 9) (err_above [3;3] (1/4) 1 9) /\
  complete64 [3;3] (dmap d_open) [0] h /\ complete64 [3;3] (dmap d_shut) [0] h' /\
  same_but64 (fun k => forall s, arrives h k s -> ((1 + err_above ([3;3])%Z (1/4) 1 9) * (3/2) < s)%R) (dmap d_open) (dmap d_shut) /\
  arrives h 1 t /\ (t <= (1 - err_below ([3;3])%Z (1/4) 1 9) * (3/2))%R /\ (err_below ([3;3])%Z (1/4) 1 9 < 1)%R.
Proof.
  assert (S1 : speeds d_open) by solve_speeds. assert (S2 : speeds d_shut) by solve_speeds.
  pose proof (dmap_precise d_open [0] S1 corner) as P1. pose proof (dmap_precise d_shut [0] S2 corner) as P2.
  assert (Q1 : (0 <= err_below ([3;3])%Z (1/4) 1 9 <= / 10)%R) by (pose proof C77_case as [_ [_ [_ [_ [K _]]]]]; lra).
  assert (Q2 : (0 <= err_above ([3;3])%Z (1/4) 1 9 <= / 10)%R).
  { pose proof C77_case as [_ [_ [_ [_ [_ [K _]]]]]]. destruct (precise_facts _ _ _ _ _ P1) as [K0 _]. lra. }
  destruct (dmap_run d_open [0] S1 corner (separated_one _ _ _)) as [h [H1 H2]]. destruct (dmap_run d_shut [0] S2 corner (separated_one _ _ _)) as [h' [H1' _]].
  assert (B0 : in_box [3;3] [0;0]) by (constructor; [lia|constructor; [lia|constructor]]).
  assert (B1 : in_box [3;3] [1;0]) by (constructor; [lia|constructor; [lia|constructor]]).
  assert (B8 : in_box [3;3] [2;2]) by (constructor; [lia|constructor; [lia|constructor]]).
  pose proof C107_case_doubles as [_ [Hmin _]].
  destruct (C107_open_ground_doubles [3;3] (dmap d_open) [0;0] [1;0] 1 _ _ h B0 B1 P1 Hmin ltac:(lra) (fun xs Hx => d_open_free _ (block33 _ xs B1 Hx)) H1) as [t [Ht [_ L]]].
  exists h, h', t. split; [exact P1|]. split; [exact P2|]. split; [exact H1|]. split; [exact H1'|]. split; [|split; [exact Ht|split; [|lra]]].
  - split.
    + intros i f Hi Hf. pose proof (dmap_range _ i S2 Hi) as Hr. destruct (d_open_free i Hr) as [F1 F2]. split; [exact F1|]. exists 1%R. split; [exact F2|].
      assert (E : i <> 8 -> nth_error d_shut (Z.to_nat i) = Some 1) by (intros Hn; nine i; first [reflexivity|contradiction]).
      destruct (Z.eq_dec i 8) as [->|Hn].
      * apply (dmap_free d_shut 8 0 eq_refl S2 ltac:(lia) eq_refl) in Hi. lia.
      * apply (dmap_cost d_shut i 1 f eq_refl ltac:(lia) ltac:(lia) (E Hn)) in Hf. lra.
    + intros i f Hn Hi Hf. pose proof (dmap_range _ i S1 Hi) as Hr. rewrite (d_open_cost i f Hr Hf).
      destruct (Z.eq_dec i 8) as [->|Hn8].
      * exfalso. apply Hn. intros s Hs.
        pose proof (C104_no_faster_than_the_straight_line_doubles [3;3] (dmap d_open) [0;0] _ _ noGoal h [2;2] s 1 B0 B8 P1 Hmin ltac:(lra) H2 Hs) as K.
        assert (Q : (2 <= sqrt (sqdist [2;2]%Z [0;0]%Z))%R).
        { replace (sqdist [2;2]%Z [0;0]%Z) with 8%R by (cbn [sqdist]; lra). apply sqrt_above; lra. }
        nra.
      * assert (E : nth_error d_shut (Z.to_nat i) = Some 1) by (nine i; first [reflexivity|contradiction]).
        split; [apply (dmap_free d_shut i 1 eq_refl S2 ltac:(lia) E); lia|]. apply (dmap_cost d_shut i 1 1%R eq_refl ltac:(lia) ltac:(lia) E). lra.
  - change (manhattan [1;0] [0;0]) with 1 in L. nra.
Qed.

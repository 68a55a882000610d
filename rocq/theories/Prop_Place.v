(** Prop_Place.v - property theorems C108 and C109: every cell is reached from an earlier
    neighbour and so has a downhill way to an initial point; a map placed inside a larger one
    behind walls keeps its arrival times. *)
From Coq Require Import Reals Lra Psatz Permutation.
From Flocq Require Import Core IEEE754.BinarySingleNaN.
From Verif Require Import Base BaseFacts Num NumXR NumF64 NumLaws Grid GridFacts GridUpd GridMore Spec Obs Eikonal
  FMMModel HeapRef HeapLaws SweepModel QueueModel FMMStruct EikR Solution XGrid FMMAbs Relax Exact Evolve Bound ExactMore ExactLocal ExactPlace Examples
  FloatOps FloatUpd FloatAbs FloatGrid Prop_FMM Prop_Sweep Prop_Bound Prop_Heap Prop_Float Prop_FloatAll Prop_Travel Prop_Local.
Open Scope Z_scope.

(** ** Specification ([place] and [fits] are in ExactPlace.v) *)

(** from [i] a way from cell to neighbouring cell leads to an initial point, the times [A]
    getting strictly smaller with every step *)
Inductive downhill (dims init : list Z) (A : Z -> R -> Prop) : Z -> Prop :=
| dh_here i : In i init -> downhill dims init A i
| dh_step i j t s : adjacent dims i j -> A i t -> A j s -> (s < t)%R -> downhill dims init A j -> downhill dims init A i.

Definition root_dim (dims : list Z) : R := sqrt (IZR (Z.of_nat (length dims))).

(** every cell around the place of the map in [g'] is an obstacle and no initial point *)
Definition walled {N : Num} (dims offs dims' : list Z) (g' : grid N) (init' : list Z) : Prop :=
  forall cs es, in_box dims cs -> in_box dims' es -> unit_step (place offs cs) es ->
    (~ exists ds, in_box dims ds /\ es = place offs ds) ->
    obstacle g' (cell_number dims' es) /\ ~ In (cell_number dims' es) init'.

Lemma obstacle_not_free {N : Num} (g : grid N) i : obstacle g i -> ~ free g i.
Proof. intros [c [Hc Ho]] [c' [Hc' Ho']]. congruence. Qed.

(** ** C108 *)
(** induction along the descent *)
Definition below_count (n : nat) (X : time_map) (x : R) : nat :=
  length (filter (fun k => match X k with Some y => if Rlt_dec y x then true else false | None => false end) (zseq n)).
Lemma filter_le {A} (P Q : A -> bool) l : (forall a, P a = true -> Q a = true) -> (length (filter P l) <= length (filter Q l))%nat.
Proof.
  intros H. induction l as [|a l IH]; [apply Nat.le_refl|]. cbn [filter]. destruct (P a) eqn:E.
  - rewrite (H a E). cbn [length]. lia.
  - destruct (Q a); cbn [length]; lia.
Qed.
Lemma filter_lt {A} (P Q : A -> bool) l a : (forall a, P a = true -> Q a = true) -> In a l -> P a = false -> Q a = true -> (length (filter P l) < length (filter Q l))%nat.
Proof.
  intros H. induction l as [|b l IH]; [intros []|]. intros [->|Hin] H1 H2; cbn [filter].
  - rewrite H1, H2. cbn [length]. pose proof (filter_le P Q l H). lia.
  - specialize (IH Hin H1 H2). destruct (P b) eqn:E; [rewrite (H b E); cbn [length]; lia|]. destruct (Q b); cbn [length]; lia.
Qed.

Lemma root_dim_pos dims i j : adjacent dims i j -> (0 < root_dim dims)%R.
Proof.
  intros [cs [ds [B1 [_ [U _]]]]]. unfold root_dim. apply sqrt_lt_R0. apply (IZR_lt 0). destruct dims as [|k r].
  - inversion B1; subst. inversion U.
  - cbn [length]. apply (Nat2Z.inj_lt 0). apply Nat.lt_0_succ.
Qed.

Lemma descent_ind dims init (fr : Z -> Prop) f X (P : Z -> Prop) : proper dims -> (forall k, fr k -> 0 < f k)%R ->
  exact_solution dims (fun i => In i init) fr f X ->
  (forall i, In i init -> P i) ->
  (forall i x j y, X i = Some x -> ~ In i init -> adjacent dims i j -> X j = Some y -> (y <= x - f i / root_dim dims)%R -> P j -> P i) ->
  forall i x, X i = Some x -> P i.
Proof.
  intros Hp Hf HX H0 H1. set (n := Z.to_nat (box_size dims)).
  assert (K : forall m i x, X i = Some x -> (below_count n X x < m)%nat -> P i).
  { induction m as [|m IH]; intros i x Hx Hm; [lia|].
    destruct (in_dec Z.eq_dec i init) as [Hin|Hin]; [apply H0; exact Hin|].
    destruct (exact_descent dims _ fr f X i x Hp Hf HX Hx Hin) as [j [y [J1 [J2 J3]]]].
    destruct (ex_at dims Hp _ _ _ _ i x HX Hx Hin) as [Hi [Hfi _]]. pose proof (Hf i Hfi) as Hpos. pose proof (root_dim_pos dims i j J1) as Hr.
    fold (root_dim dims) in J3.
    assert (Hlt : (y < x)%R) by (assert (0 < f i / root_dim dims)%R by (apply Rdiv_lt_0_compat; assumption); lra).
    assert (Hc : (below_count n X y < below_count n X x)%nat).
    { pose proof (ex_range _ _ _ _ _ HX j y J2) as Hj. unfold below_count. apply filter_lt with (a := j).
      - intros k Hk. destruct (X k) as [z|]; [|discriminate]. destruct (Rlt_dec z y) as [L|L]; [|discriminate]. destruct (Rlt_dec z x) as [L'|L']; [reflexivity|lra].
      - apply in_zseq. unfold n. lia.
      - rewrite J2. destruct (Rlt_dec y y) as [L|L]; [lra|reflexivity].
      - rewrite J2. destruct (Rlt_dec y x) as [L|L]; [reflexivity|lra]. }
    apply (H1 i x j y Hx Hin J1 J2 J3). apply (IH j y J2). lia. }
  intros i x Hx. apply (K _ i x Hx (Nat.lt_succ_diag_r _)).
Qed.

Theorem C108_every_cell_has_an_earlier_neighbour :
  forall dims (g : grid XR) init T i t,
  exact_problem dims g init -> result_of dims g init T ->
  T i = Some t -> ~ In i init ->
  exists j s, adjacent dims i j /\ T j = Some s /\ (s <= t - slow g i / root_dim dims + xerr dims)%R.
Proof.
  intros dims g init T i t HP HT Ht Hn. destruct (C52_exact_solution_exists_and_is_unique _ _ _ HP) as [X [HX _]].
  pose proof (problem_proper _ _ _ HP) as Hp. destruct (result_run _ _ _ _ HT) as [h [Hrun ET]].
  assert (Hx : exists x, X i = Some x /\ (x <= t)%R) by (apply (C53_no_solver_is_below_the_exact_solution dims g init X h i t HP HX Hrun); rewrite <- ET; exact Ht).
  destruct Hx as [x [Hx Hle]]. destruct (exact_descent dims _ _ _ X i x Hp (problem_slow _ _ _ HP) HX Hx Hn) as [j [y [J1 [J2 J3]]]].
  pose proof (close_result dims g init T X j HP HT HX (ex_range _ _ _ _ _ HX j y J2)) as C. rewrite J2 in C.
  destruct (T j) as [s|] eqn:E; [|destruct C]. exists j, s. split; [exact J1|]. split; [exact E|]. unfold root_dim. lra.
Qed.
Print Assumptions C108_every_cell_has_an_earlier_neighbour.

Theorem C108_every_cell_has_a_downhill_way :
  forall dims (g : grid XR) init T i t,
  exact_problem dims g init -> result_of dims g init T ->
  (forall k, free g k -> xerr dims < slow g k / root_dim dims)%R ->
  T i = Some t -> downhill dims init (fun k s => T k = Some s) i.
Proof.
  intros dims g init T i t HP HT Hbig Ht. destruct (C52_exact_solution_exists_and_is_unique _ _ _ HP) as [X [HX _]].
  pose proof (problem_proper _ _ _ HP) as Hp. destruct (result_run _ _ _ _ HT) as [h [Hrun ET]].
  assert (Hx : exists x, X i = Some x /\ (x <= t)%R) by (apply (C53_no_solver_is_below_the_exact_solution dims g init X h i t HP HX Hrun); rewrite <- ET; exact Ht).
  destruct Hx as [x [Hx _]]. clear t Ht. revert i x Hx.
  apply (descent_ind dims init (free g) (slow g) X _ Hp (problem_slow _ _ _ HP) HX); [intros i Hi; apply dh_here; exact Hi|].
  intros i x j y Hx Hn Hij Hy Hle IH. destruct (ex_at dims Hp _ _ _ _ i x HX Hx Hn) as [Hi [Hfi _]]. specialize (Hbig i Hfi).
  pose proof (close_result dims g init T X i HP HT HX Hi) as C. rewrite Hx in C. destruct (T i) as [t|] eqn:Et; [|destruct C].
  pose proof (close_result dims g init T X j HP HT HX (ex_range _ _ _ _ _ HX j y Hy)) as C'. rewrite Hy in C'. destruct (T j) as [s|] eqn:Es; [|destruct C'].
  apply (dh_step _ _ _ i j t s); auto. lra.
Qed.
Print Assumptions C108_every_cell_has_a_downhill_way.

Theorem C108_every_cell_has_an_earlier_neighbour_doubles :
  forall dims g init eb ea h i t f,
  precise dims g init eb ea -> complete64 dims g init h -> (eb < 1)%R ->
  arrives h i t -> ~ In i init -> cost g i f ->
  exists j s, adjacent dims i j /\ arrives h j s /\ ((1 - eb) * (s + f / root_dim dims) <= (1 + ea) * t)%R.
Proof.
  intros dims g init eb ea h i t f HP Hrun Heb Ht Hn Hcf. destruct (precise_facts _ _ _ _ _ HP) as [Hea [Hp [Hr [Hf [Hc [X [HX [HA HB]]]]]]]].
  destruct (run_cell _ _ _ _ _ X noGoal h i t HP HX HA (or_introl (complete_run _ _ _ _ Hrun)) Ht) as [x [Hx [Hx0 [Hi [Ht0 Hle]]]]].
  destruct (exact_descent dims _ _ _ X i x Hp (fun k Hk => proj1 (Hf k Hk)) HX Hx Hn) as [j [y [J1 [J2 J3]]]].
  destruct (ex_at dims Hp _ _ _ _ i x HX Hx Hn) as [_ [Hfi _]]. destruct (Hc i f Hcf) as [->|K]; [|contradiction].
  specialize (HB h j Hrun (ex_range _ _ _ _ _ HX j y J2)). rewrite J2 in HB. destruct HB as [s [B1 [_ [B2 [_ B4]]]]]. exists j, s. split; [exact J1|]. split; [exact B1|].
  fold (root_dim dims) in J3. pose proof (proj1 (Hf i Hfi)) as Hpos. pose proof (ex_nonneg _ _ _ _ _ HX j y J2) as Hy0.
  assert (Hq : (0 <= slow64 g i / root_dim dims)%R).
  { unfold Rdiv. apply Rmult_le_pos; [lra|]. unfold root_dim. destruct (Req_dec (sqrt (IZR (Z.of_nat (length dims)))) 0) as [->|E]; [rewrite Rinv_0; lra|].
    apply Rlt_le, Rinv_0_lt_compat. pose proof (sqrt_pos (IZR (Z.of_nat (length dims)))). lra. }
  set (q := (slow64 g i / root_dim dims)%R) in *.
  apply Rle_trans with ((1 - eb) * ((1 + ea) * x))%R.
  - apply Rmult_le_compat_l; [lra|]. assert ((1 + ea) * y <= (1 + ea) * (x - q))%R by (apply Rmult_le_compat_l; lra). nra.
  - replace ((1 - eb) * ((1 + ea) * x))%R with ((1 + ea) * ((1 - eb) * x))%R by ring. apply Rmult_le_compat_l; lra.
Qed.
Print Assumptions C108_every_cell_has_an_earlier_neighbour_doubles.

Theorem C108_every_cell_has_a_downhill_way_doubles :
  forall dims g init eb ea h i t,
  precise dims g init eb ea -> complete64 dims g init h -> (eb < 1)%R ->
  (forall k s f, free g k -> arrives h k s -> cost g k f -> (eb + ea) * s < (1 - eb) * (f / root_dim dims))%R ->
  arrives h i t -> downhill dims init (arrives h) i.
Proof.
  intros dims g init eb ea h i t HP Hrun Heb Hbig Ht. destruct (precise_facts _ _ _ _ _ HP) as [Hea [Hp [Hr [Hf [Hc [X [HX [HA HB]]]]]]]].
  destruct (run_cell _ _ _ _ _ X noGoal h i t HP HX HA (or_introl (complete_run _ _ _ _ Hrun)) Ht) as [x [Hx _]].
  clear t Ht. revert i x Hx.
  apply (descent_ind dims init (free g) (slow64 g) X _ Hp (fun k Hk => proj1 (Hf k Hk)) HX); [intros i Hi; apply dh_here; exact Hi|].
  intros i x j y Hx Hn Hij Hy Hle IH. destruct (ex_at dims Hp _ _ _ _ i x HX Hx Hn) as [Hi [Hfi _]].
  pose proof (HB h i Hrun Hi) as Ci. rewrite Hx in Ci. destruct Ci as [t [At [_ [Ht0 [Ht1 _]]]]].
  pose proof (HB h j Hrun (ex_range _ _ _ _ _ HX j y Hy)) as Cj. rewrite Hy in Cj. destruct Cj as [s [As [_ [_ [_ Hs2]]]]].
  specialize (Hbig i t _ Hfi At (proj2 (Hf i Hfi))). set (q := (slow64 g i / root_dim dims)%R) in *.
  apply (dh_step _ _ _ i j t s); auto.
  assert (Hq0 : (0 <= q)%R).
  { unfold q, Rdiv. apply Rmult_le_pos; [pose proof (proj1 (Hf i Hfi)); lra|]. unfold root_dim. destruct (Req_dec (sqrt (IZR (Z.of_nat (length dims)))) 0) as [->|E]; [rewrite Rinv_0; lra|].
    apply Rlt_le, Rinv_0_lt_compat. pose proof (sqrt_pos (IZR (Z.of_nat (length dims)))). lra. }
  assert (H1 : ((1 - eb) * s <= (1 - eb) * ((1 + ea) * (x - q)))%R).
  { apply Rmult_le_compat_l; [lra|]. eapply Rle_trans; [exact Hs2|]. apply Rmult_le_compat_l; lra. }
  assert (H2 : ((1 + ea) * ((1 - eb) * x) <= (1 + ea) * t)%R) by (apply Rmult_le_compat_l; lra).
  assert (H3 : (0 <= ea * ((1 - eb) * q))%R) by (apply Rmult_le_pos; [exact Hea|apply Rmult_le_pos; lra]).
  apply Rmult_lt_reg_l with (1 - eb)%R; [lra|]. nra.
Qed.
Print Assumptions C108_every_cell_has_a_downhill_way_doubles.

(** ** C109 *)
Theorem C109_what_is_behind_walls_does_not_matter :
  forall dims offs dims' (g g' : grid XR) init init' T T' cs,
  fits dims offs dims' -> carried dims dims' (place offs) g g' init init' -> walled dims offs dims' g' init' ->
  exact_problem dims g init -> exact_problem dims' g' init' ->
  result_of dims g init T -> result_of dims' g' init' T' -> in_box dims cs ->
  match T (cell_number dims cs), T' (cell_number dims' (place offs cs)) with
  | Some t, Some t' => (t - xerr dims <= t' <= t + xerr dims')%R
  | None, None => True
  | _, _ => False
  end.
Proof.
  intros dims offs dims' g g' init init' T T' cs Hfit Hca Hw HP HP' HT HT' Hcs.
  destruct (C52_exact_solution_exists_and_is_unique _ _ _ HP) as [X [HX _]].
  destruct (C52_exact_solution_exists_and_is_unique _ _ _ HP') as [X' [HX' _]].
  pose proof (problem_proper _ _ _ HP) as Hp.
  assert (Hr : forall i, In i init -> 0 <= i < box_size dims) by (destruct HP as [_ [_ [_ [_ K]]]]; exact K).
  pose proof (exact_placed dims offs dims' init init' (free g) (free g') (slow g) (slow g') X X' Hp Hfit (problem_slow _ _ _ HP) Hr
    (carried_slow _ _ _ _ _ _ _ Hca) (fun c e A B C D => match Hw c e A B C D with conj o n => conj (obstacle_not_free g' _ o) n end) HX HX' cs Hcs) as E.
  pose proof (close_result dims g init T X _ HP HT HX (cell_number_range dims cs Hcs)) as C.
  pose proof (close_result dims' g' init' T' X' _ HP' HT' HX' (cell_number_range dims' _ (fits_box _ _ _ Hfit cs Hcs))) as C'.
  rewrite E in C'. destruct (X (cell_number dims cs)), (T (cell_number dims cs)), (T' (cell_number dims' (place offs cs))); try contradiction; auto. lra.
Qed.
Print Assumptions C109_what_is_behind_walls_does_not_matter.

Theorem C109_what_is_behind_walls_doubles :
  forall dims offs dims' g g' init init' eb ea eb' ea' goal h h' cs t,
  fits dims offs dims' -> carried dims dims' (place offs) g g' init init' -> walled dims offs dims' g' init' ->
  precise dims g init eb ea -> precise dims' g' init' eb' ea' -> in_box dims cs ->
  (any64 dims g init goal h -> arrives h (cell_number dims cs) t -> complete64 dims' g' init' h' ->
     exists t', arrives h' (cell_number dims' (place offs cs)) t' /\ ((1 - eb) * t' <= (1 + ea') * t)%R) /\
  (any64 dims' g' init' goal h' -> arrives h' (cell_number dims' (place offs cs)) t -> complete64 dims g init h ->
     exists t', arrives h (cell_number dims cs) t' /\ ((1 - eb') * t' <= (1 + ea) * t)%R).
Proof.
  intros dims offs dims' g g' init init' eb ea eb' ea' goal h h' cs t Hfit Hca Hw HP HP' Hcs.
  destruct (precise_facts _ _ _ _ _ HP) as [Hea [Hp [Hr [Hf [_ [X [HX [HA HB]]]]]]]].
  destruct (precise_facts _ _ _ _ _ HP') as [Hea' [_ [_ [_ [_ [X' [HX' [HA' HB']]]]]]]].
  pose proof (exact_placed dims offs dims' init init' (free g) (free g') (slow64 g) (slow64 g') X X' Hp Hfit (fun k Hk => proj1 (Hf k Hk)) Hr
    (carried_slow64 _ _ _ _ _ _ _ Hca) (fun c e A B C D => match Hw c e A B C D with conj o n => conj (obstacle_not_free g' _ o) n end) HX HX' cs Hcs) as E.
  split; intros Hrun Ha Hrun'.
  - destruct (run_cell _ _ _ _ _ X goal h _ t HP HX HA Hrun Ha) as [x [Hx [Hx0 [Hi [Ht0 Hle]]]]].
    specialize (HB' h' _ Hrun' (cell_number_range dims' _ (fits_box _ _ _ Hfit cs Hcs))). rewrite E, Hx in HB'.
    destruct HB' as [t' [B1 [_ [B2 [_ B4]]]]]. exists t'. split; [exact B1|].
    eapply chain; [exact Hea'|exact Hx0|apply Rle_refl|exact Ht0|exact B2|exact Hle|exact B4].
  - destruct (run_cell _ _ _ _ _ X' goal h' _ t HP' HX' HA' Hrun Ha) as [x [Hx [Hx0 [Hi [Ht0 Hle]]]]].
    specialize (HB h _ Hrun' (cell_number_range dims _ Hcs)). rewrite <- E, Hx in HB.
    destruct HB as [t' [B1 [_ [B2 [_ B4]]]]]. exists t'. split; [exact B1|].
    eapply chain; [exact Hea|exact Hx0|apply Rle_refl|exact Ht0|exact B2|exact Hle|exact B4].
Qed.
Print Assumptions C109_what_is_behind_walls_doubles.

(** ** Cases *)
Example C108_case :
  exact_problem [2;3] t_map [0] /\ separated [2;3] t_map [0] /\
  (forall k, free t_map k -> xerr [2;3]%Z < slow t_map k / root_dim [2;3]%Z)%R /\
  exists T, result_of [2;3] t_map [0] T /\ exists t, T 5 = Some t /\ ~ In 5 [0].
Proof.
  assert (P1 : exact_problem [2;3] t_map [0]) by (apply vmap_problem; [exact shape23|reflexivity|lra|apply one_point; cbn; lia]).
  assert (Hm : (0 < Rmargin <= / 1000)%R) by (unfold Rmargin; lra).
  assert (Hp : proper [2;3]) by (repeat constructor; lia).
  assert (A : forall i j, 0 <= i < 6 -> In j (nbrs [2;3] i) -> adjacent [2;3] i j) by (intros i j Hi Hj; apply (nbrs_spec [2;3] i j Hp); [exact Hi|exact Hj]).
  assert (F : forall k v, 0 <= k -> nth_error ([1;2;3;4;0;5]%R) (Z.to_nat k) = Some v -> (1 <= v)%R -> free t_map k).
  { intros k v Hk E Hv. destruct (vgrid_get [2;3] (XFin 1 : XR) (map XFin [1;2;3;4;0;5]%R : list XR) k (XFin v) eq_refl Hk) as [c [Hc Ev]].
    - rewrite nth_error_map. exact (f_equal (option_map XFin) E).
    - exists c. split; [exact Hc|]. unfold isOccupied. rewrite Ev, xr_margin. cbn [nltb XR xltb]. apply Rltb_false. unfold Rmargin in *. lra. }
  split; [exact P1|]. split; [apply separated_one|]. split.
  - intros k [c [Hc Ho]]. pose proof Hc as Hc'. apply vgrid_cell in Hc. destruct Hc as [Hi Hc]. cbn [length map] in Hi.
    assert (Hv : exists v, c_occ c = XFin v /\ (0 < v <= 5)%R).
    { assert (Hi6 : 0 <= k < 6) by lia. clear Hi. unfold isOccupied in Ho.
      six k; cbn in Hc; injection Hc as Hc; rewrite <- Hc in Ho |- *; rewrite xr_margin in Ho; cbn [nltb XR xltb] in Ho; apply Rltb_false in Ho; try (exfalso; lra);
        (eexists; split; [reflexivity|lra]). }
    destruct Hv as [v [Ev Hv]]. unfold slow. rewrite Hc', Ev. change (g_leaf t_map) with (XFin 1 : XR). cbn match.
    unfold xerr, root_dim. change (box_size [2;3]) with 6. change (Z.of_nat (length [2;3])) with 2.
    assert (S0 : (0 < sqrt 2)%R) by (apply sqrt_lt_R0; lra).
    assert (S2 : (sqrt 2 <= 2)%R) by (rewrite <- (sqrt_square 2) at 2 by lra; apply sqrt_le_1; lra).
    apply Rmult_lt_reg_r with (sqrt 2)%R; [exact S0|]. replace (1 / v / sqrt 2 * sqrt 2)%R with (1 / v)%R by (field; lra).
    apply Rmult_lt_reg_r with v; [lra|]. replace (1 / v * v)%R with 1%R by (field; lra).
    apply Rle_lt_trans with (2 * / 1000 * 6 * 2 * 5)%R; [|lra].
    apply Rmult_le_compat; try lra; [apply Rmult_le_pos; lra|]. apply Rmult_le_compat; try lra; nra.
  - destruct (vmap_run _ _ _ P1 (separated_one _ _ _)) as [h [Hrun H]]. exists (times h). split; [exact H|].
    destruct (C104_no_slower_than_any_route [2;3] t_map [0] (times h) 0 5 (0 + slow t_map 1 + slow t_map 3 + slow t_map 5) P1 H) as [t [Ht _]].
    + left. reflexivity.
    + eapply route_step; [eapply route_step; [eapply route_step; [apply route_stay| |]| |]| |].
      all: first [apply A; [lia|cbn; auto 6]|eapply F; [lia|reflexivity|lra]].
    + exists t. split; [exact Ht|]. cbn. lia.
Qed.

(** the map of C102 in the corner of a 4x4 map: walls at x = 2 and y = 3, and behind them fast cells
    and another initial point *)
Definition p_large : grid XR := vmap [4;4] 1 [1;2;0;7; 3;4;0;7; 0;5;0;7; 0;0;7;7]%R.
(** and as the lower layer of a map in three dimensions *)
Definition p_layer : grid XR := vmap [2;3;2] 1 [1;2;3;4;0;5; 0;0;0;0;0;0]%R.

Ltac in2 H x y := let r := fresh in let Hx := fresh in let Hr := fresh in let r' := fresh in let Hy := fresh in let Hr' := fresh in
  inversion H as [|? x ? r Hx Hr]; subst; inversion Hr as [|? y ? r' Hy Hr']; subst; inversion Hr'; subst.

Lemma large_walled {N : Num} (g' : grid N) init' : (forall e, In e [2;6;10;12;13] -> obstacle g' e /\ ~ In e init') -> walled [2;3] [0;0] [4;4] g' init'.
Proof.
  intros H cs es Hc He Hs Hout. in2 Hc x y. in2 He a b. cbn [place] in Hs. apply H. cbn [cell_number].
  destruct (Z_lt_dec a 2) as [La|La]; [destruct (Z_lt_dec b 3) as [Lb|Lb]|].
  - exfalso. apply Hout. exists [a;b]. split; [constructor; [lia|constructor; [lia|constructor]]|]. cbn [place]. do 2 f_equal; lia.
  - assert (Hab : b = 3 /\ (a = 0 \/ a = 1)).
    { inversion Hs as [? ? ? Hd|? ? ? Hs2]; subst; [lia|]. inversion Hs2 as [? ? ? Hd|? ? ? Hs3]; subst; [lia|inversion Hs3]. }
    destruct Hab as [-> [-> | ->]]; cbn; auto 10.
  - assert (Hab : a = 2 /\ (b = 0 \/ b = 1 \/ b = 2)).
    { inversion Hs as [? ? ? Hd|? ? ? Hs2]; subst; lia. }
    destruct Hab as [-> [-> |[-> | ->]]]; cbn; auto 10.
Qed.

Lemma large_fits : fits [2;3] [0;0] [4;4].
Proof. constructor; [lia|lia|]. constructor; [lia|lia|]. constructor. Qed.
Lemma layer_fits : fits [2;3] [0;0;0] [2;3;2].
Proof. constructor; [lia|lia|]. constructor; [lia|lia|]. constructor; [lia|]. constructor. Qed.

Lemma vmap_obstacle dims vs i : Z.of_nat (length vs) = box_size dims -> 0 <= i -> nth_error vs (Z.to_nat i) = Some 0%R -> obstacle (vmap dims 1 vs) i.
Proof.
  intros Hl Hi E. destruct (vgrid_get dims (XFin 1 : XR) (map XFin vs : list XR) i (XFin 0)) as [c [Hc Ev]]; [rewrite map_length; exact Hl|exact Hi|rewrite nth_error_map; exact (f_equal (option_map XFin) E)|].
  exists c. split; [exact Hc|]. unfold isOccupied. rewrite Ev, xr_margin. cbn [nltb XR xltb]. apply Rltb_true. unfold Rmargin. lra.
Qed.

Example C109_case :
  fits [2;3] [0;0] [4;4] /\ carried [2;3] [4;4] (place [0;0]) t_map p_large [0] [0;3] /\ walled [2;3] [0;0] [4;4] p_large [0;3] /\
  exact_problem [2;3] t_map [0] /\ separated [2;3] t_map [0] /\ exact_problem [4;4] p_large [0;3] /\ separated [4;4] p_large [0;3] /\
  (exists T, result_of [2;3] t_map [0] T) /\ (exists T', result_of [4;4] p_large [0;3] T') /\
  fits [2;3] [0;0;0] [2;3;2] /\ carried [2;3] [2;3;2] (place [0;0;0]) t_map p_layer [0] [0] /\ walled [2;3] [0;0;0] [2;3;2] p_layer [0] /\
  exact_problem [2;3;2] p_layer [0] /\ exists T', result_of [2;3;2] p_layer [0] T'.
Proof.
  assert (P1 : exact_problem [2;3] t_map [0]) by (apply vmap_problem; [exact shape23|reflexivity|lra|apply one_point; cbn; lia]).
  assert (P2 : exact_problem [4;4] p_large [0;3]).
  { apply vmap_problem; [split; [repeat (constructor; [lia|]); constructor|cbn; lia]|reflexivity|lra|].
    split; [repeat (constructor; [cbn; lia|]); constructor|]. intros i [<-|[<-|[]]]; cbn; lia. }
  assert (P3 : exact_problem [2;3;2] p_layer [0]).
  { apply vmap_problem; [split; [repeat (constructor; [lia|]); constructor|cbn; lia]|reflexivity|lra|apply one_point; cbn; lia]. }
  assert (S2 : separated [4;4] p_large [0;3]).
  { intros i j Hi Hj Hij. exfalso. assert (Hp : proper [4;4]) by (repeat constructor; lia).
    assert (Hir : 0 <= i < box_size [4;4]) by (cbn; destruct Hi as [<-|[<-|[]]]; lia).
    apply (nbrs_spec [4;4] i j Hp Hir) in Hij. destruct Hi as [<-|[<-|[]]]; vm_compute in Hij; destruct Hj as [<-|[<-|[]]]; intuition discriminate. }
  split; [exact large_fits|]. split; [|split; [|split; [exact P1|]; split; [apply separated_one|]; split; [exact P2|]; split; [exact S2|]; split; [|split; [|split; [exact layer_fits|split; [|split; [|split; [exact P3|]]]]]]]].
  - split; [reflexivity|]. intros cs Hcs. in2 Hcs x y. assert (Hx2 : x = 0 \/ x = 1) by lia. assert (Hy3 : y = 0 \/ y = 1 \/ y = 2) by lia.
    destruct Hx2 as [-> | ->]; destruct Hy3 as [-> |[-> | ->]]; (split; [|cbn; lia]);
    match goal with |- exists c c', getCell t_map ?i = _ /\ getCell p_large ?j = _ /\ _ =>
      destruct (vgrid_get [2;3] (XFin 1 : XR) (map XFin [1;2;3;4;0;5]%R : list XR) i _ eq_refl ltac:(cbn; lia) eq_refl) as [c [Hc Hv]];
      destruct (vgrid_get [4;4] (XFin 1 : XR) (map XFin [1;2;0;7; 3;4;0;7; 0;5;0;7; 0;0;7;7]%R : list XR) j _ eq_refl ltac:(cbn; lia) eq_refl) as [c' [Hc' Hv']] end;
    (exists c, c'; split; [exact Hc|]; split; [exact Hc'|congruence]).
  - apply large_walled. intros e He. split; [|cbn in He |- *; lia].
    cbn in He. destruct He as [<-|[<-|[<-|[<-|[<-|[]]]]]]; (apply vmap_obstacle; [reflexivity|lia|reflexivity]).
  - destruct (vmap_run _ _ _ P1 (separated_one _ _ _)) as [h [_ H]]. eauto.
  - destruct (vmap_run _ _ _ P2 S2) as [h [_ H]]. eauto.
  - split; [reflexivity|]. intros cs Hcs. in2 Hcs x y. assert (Hx2 : x = 0 \/ x = 1) by lia. assert (Hy3 : y = 0 \/ y = 1 \/ y = 2) by lia.
    destruct Hx2 as [-> | ->]; destruct Hy3 as [-> |[-> | ->]]; (split; [|cbn; lia]);
    match goal with |- exists c c', getCell t_map ?i = _ /\ getCell p_layer ?j = _ /\ _ =>
      destruct (vgrid_get [2;3] (XFin 1 : XR) (map XFin [1;2;3;4;0;5]%R : list XR) i _ eq_refl ltac:(cbn; lia) eq_refl) as [c [Hc Hv]];
      destruct (vgrid_get [2;3;2] (XFin 1 : XR) (map XFin [1;2;3;4;0;5; 0;0;0;0;0;0]%R : list XR) j _ eq_refl ltac:(cbn; lia) eq_refl) as [c' [Hc' Hv']] end;
    (exists c, c'; split; [exact Hc|]; split; [exact Hc'|congruence]).
  - intros cs es Hc He Hs Hout. in2 Hc x y. inversion He as [|? a ? ra Ha Hra]; subst. inversion Hra as [|? b ? rb Hb Hrb]; subst. inversion Hrb as [|? d ? rd Hd Hrd]; subst. inversion Hrd; subst.
    assert (Hd2 : d = 0 \/ d = 1) by lia. destruct Hd2 as [-> | ->].
    + exfalso. apply Hout. exists [a;b]. split; [constructor; [lia|constructor; [lia|constructor]]|]. cbn [place]. do 2 f_equal; lia.
    + assert (Ha2 : a = 0 \/ a = 1) by lia. assert (Hb3 : b = 0 \/ b = 1 \/ b = 2) by lia.
      destruct Ha2 as [-> | ->]; destruct Hb3 as [-> |[-> | ->]]; (split; [|cbn; lia]); (apply vmap_obstacle; [reflexivity|cbn; lia|reflexivity]).
  - destruct (vmap_run _ _ _ P3 (separated_one _ _ _)) as [h [_ H]]. eauto.
Qed.

(** ** Cases: doubles *)
(** two-dimensional maps of at most sixteen cells, the velocities 0 to 4 *)
Definition imap (dims vs : list Z) : grid F64 := vgrid dims (n1 : F64) (map z64 vs).
Definition small (dims vs : list Z) : Prop :=
  shape_ok dims /\ length dims = 2%nat /\ Z.of_nat (length vs) = box_size dims /\ box_size dims <= 16 /\
  Forall (fun v => v = 0 \/ 1 <= v <= 4) vs.
Notation eb16 dims := (err_below dims (1/4) 1 (IZR (box_size dims))).
Notation ea16 dims := (err_above dims (1/4) 1 (IZR (box_size dims))).

Lemma imap_occ dims vs i c : small dims vs -> getCell (imap dims vs) i = Ok c -> isOccupied c = false ->
  exists z, c_occ c = z64 z /\ 1 <= z <= 4.
Proof.
  intros [_ [_ [_ [_ Hv]]]] Hc Ho. rewrite Forall_forall in Hv. apply vgrid_cell in Hc. destruct Hc as [_ Hc]. rewrite nth_error_map in Hc.
  destruct (nth_error vs (Z.to_nat i)) as [z|] eqn:E; [|discriminate]. cbn [option_map] in Hc. injection Hc as Hc. exists z. split; [congruence|].
  destruct (Hv z (nth_error_In _ _ E)) as [->|K]; [|exact K]. exfalso. unfold isOccupied in Ho. rewrite <- Hc in Ho. vm_compute in Ho. discriminate.
Qed.

Lemma small_errors dims vs : small dims vs -> (0 <= eb16 dims <= / 10 ^ 7)%R /\ (0 <= ea16 dims <= / 10 ^ 7)%R.
Proof.
  intros [[H2 _] [Hl [_ [Hb _]]]]. assert (Hb0 : 1 <= box_size dims) by (pose proof (box_size_pos dims (dims2_proper' _ H2)); lia).
  apply IZR_le in Hb, Hb0. unfold err_below, err_above, Rmargin. rewrite Hl. cbn [INR]. revert Hb Hb0. generalize (IZR (box_size dims)) as b. intros b Hb Hb0.
  set (u := ((b + 1) / (1 / 4))%R). set (w := ((2 * b + 5 * 1) / (1 / 4))%R).
  assert (Hu : (0 <= u <= 68)%R) by (unfold u, Rdiv; lra). assert (Hw : (0 <= w <= 148)%R) by (unfold w, Rdiv; lra).
  assert (Hu2 : (0 <= u ^ 2 <= 4624)%R) by nra. assert (Hw2 : (0 <= w ^ 2 <= 21904)%R) by nra. clearbody u w. lra.
Qed.

Lemma imap_facts dims vs init : small dims vs -> points_ok dims init ->
  double_problem dims (imap dims vs) init /\ within_resolution dims (imap dims vs) (1/4) 1 /\
  exists X, exact_for dims (imap dims vs) init X (IZR (box_size dims)).
Proof.
  intros Hs Hpt. pose proof Hs as [Hsh [Hl2 [Hl [Hb Hv]]]].
  assert (HP : double_problem dims (imap dims vs) init).
  { split; [exact Hsh|]. split; [apply vgrid_clean; rewrite map_length, Hl; reflexivity|]. split; [exact Hpt|].
    pose proof pow200_big as B. assert (B' : (/ 2 ^ 200 <= 1)%R).
    { rewrite <- Rinv_1. apply Rinv_le_contravar; lra. }
    split.
    - exists 1%R. split; [exact (denotes_Z 1 ltac:(lia))|lra].
    - intros i c Hc Ho. destruct (imap_occ dims vs i c Hs Hc Ho) as [z [-> Hz]]. exists (IZR z). split; [apply denotes_Z; lia|].
      destruct Hz as [Z1 Z2]. apply IZR_le in Z1, Z2. lra. }
  assert (HW : within_resolution dims (imap dims vs) (1/4) 1).
  { split; [lra|]. split; [lra|]. split.
    - intros i f [c0 [Hc0 Ho]] [c [h [v [Hc [[_ Hh] [[_ Hv'] ->]]]]]]. assert (c0 = c) by congruence. subst c0.
      destruct (imap_occ dims vs i c Hs Hc Ho) as [z [E Hz]]. rewrite E in Hv'. rewrite (proj2 (denotes_Z z ltac:(lia))) in Hv'.
      change (g_leaf (imap dims vs)) with (z64 1) in Hh. rewrite (proj2 (denotes_Z 1 ltac:(lia))) in Hh. subst h v.
      destruct Hz as [Z1 Z2]. apply IZR_le in Z1, Z2. unfold Rdiv. rewrite !Rmult_1_l. split; [|rewrite <- Rinv_1]; apply Rinv_le_contravar; lra.
    - rewrite Hl2. cbn [INR]. apply IZR_le in Hb. assert (Hb0 : 0 <= box_size dims) by (rewrite <- Hl; lia). apply IZR_le in Hb0.
      revert Hb Hb0. generalize (IZR (box_size dims)) as b. intros b Hb Hb0. set (w := ((b + 3) * 1)%R). assert (Hw : (0 <= w <= 19)%R) by (unfold w; lra). clearbody w. nra. }
  split; [exact HP|]. split; [exact HW|]. destruct (C76_exact_solution_exists _ _ _ _ _ HP HW) as [X HX].
  rewrite Rmult_1_l in HX. exists X. exact HX.
Qed.

Lemma imap_precise dims vs init : small dims vs -> points_ok dims init -> precise dims (imap dims vs) init (eb16 dims) (ea16 dims).
Proof.
  intros Hs Hpt. destruct (imap_facts dims vs init Hs Hpt) as [HP [HW [X HX]]].
  exists (1/4)%R, 1%R, X, (IZR (box_size dims)). split; [exact HP|]. split; [exact HW|]. split; [exact HX|]. split; [reflexivity|]. split; [reflexivity|].
  destruct (small_errors dims vs Hs) as [_ [_ K]]. lra.
Qed.

Lemma imap_run dims vs init : small dims vs -> points_ok dims init -> separated dims (imap dims vs) init ->
  exists h, complete64 dims (imap dims vs) init h /\ any64 dims (imap dims vs) init noGoal h.
Proof.
  intros Hs Hpt Hsep. destruct (imap_facts dims vs init Hs Hpt) as [HP [HW _]].
  destruct (proj1 (C77_all_solvers_have_a_result RefHeap (RefHeap_laws F64_laws) _ _ _ _ _ (z64 0) (z64 1) HP HW) Hsep) as [st [log [fuel H]]].
  assert (C : complete64 dims (imap dims vs) init (fs_g st)) by (eapply (c64_fmm _ _ _ RefHeap (RefHeap_laws F64_laws)); eauto).
  exists (fs_g st). split; [exact C|]. left. apply complete_run. exact C.
Qed.

(** no time is later than twice the number of cells *)
Lemma imap_late dims vs init h k s : small dims vs -> points_ok dims init -> complete64 dims (imap dims vs) init h ->
  0 <= k < box_size dims -> arrives h k s -> (0 <= s <= 32)%R.
Proof.
  intros Hs Hpt Hrun Hk [d0 [D1 D2]]. destruct (imap_facts dims vs init Hs Hpt) as [HP [HW [X HX]]].
  destruct (small_errors dims vs Hs) as [[E0 E1] [E2 E3]].
  assert (Hea : (ea16 dims <= 1)%R) by lra.
  pose proof (C77_doubles_are_accurate dims _ init _ _ X _ h k HP HW HX Hea Hrun Hk) as K.
  destruct (X k) as [x|] eqn:Ex.
  - destruct K as [d [t [K1 [K2 K3]]]]. unfold time_is in *. assert (Hd : d = d0) by (rewrite K1 in D1; injection D1 as D1; exact D1). rewrite Hd in K2. assert (t = s) by (rewrite <- (proj2 K2), <- (proj2 D2); reflexivity). subst t.
    destruct HX as [f [_ [HX Hm]]]. pose proof (Hm k x Ex) as L. pose proof (ex_nonneg _ _ _ _ _ HX k x Ex) as L0.
    pose proof Hs as [_ [_ [_ [Hb _]]]]. apply IZR_le in Hb. nra.
  - exfalso. unfold time_is in *. rewrite K in D1. injection D1 as D1. rewrite <- D1 in D2. destruct D2 as [D2 _]. vm_compute in D2. discriminate.
Qed.

Definition m_small : list Z := [1;2;3;4;0;4].
Definition m_large : list Z := [1;2;0;4; 3;4;0;4; 0;4;0;4; 0;0;4;4].
Lemma m_small_ok : small [2;3] m_small.
Proof. split; [exact shape23|]. split; [reflexivity|]. split; [reflexivity|]. split; [cbn; lia|]. repeat constructor; lia. Qed.
Lemma m_large_ok : small [4;4] m_large.
Proof. split; [split; [repeat (constructor; [lia|]); constructor|cbn; lia]|]. split; [reflexivity|]. split; [reflexivity|]. split; [cbn; lia|]. repeat constructor; lia. Qed.

Example C108_case_doubles :
  precise [2;3] (imap [2;3] m_small) [0] (eb16 [2;3]%Z) (ea16 [2;3]%Z) /\ (eb16 [2;3]%Z < 1)%R /\
  exists h, complete64 [2;3] (imap [2;3] m_small) [0] h /\ (exists t, arrives h 5 t) /\
    (forall k s f, free (imap [2;3] m_small) k -> arrives h k s -> cost (imap [2;3] m_small) k f ->
       ((eb16 [2;3]%Z + ea16 [2;3]%Z) * s < (1 - eb16 [2;3]%Z) * (f / root_dim [2;3]%Z))%R).
Proof.
  pose proof m_small_ok as S. pose proof (one_point [2;3] 0 ltac:(cbn; lia)) as P. pose proof (small_errors _ _ S) as [[E0 E1] [E2 E3]].
  pose proof (imap_precise _ _ _ S P) as HP. split; [exact HP|]. split; [lra|].
  destruct (imap_run _ _ _ S P (separated_one _ _ _)) as [h [Hrun Hany]]. exists h. split; [exact Hrun|]. split.
  - assert (Hp : proper [2;3]) by (repeat constructor; lia).
    assert (A : forall i j, 0 <= i < 6 -> In j (nbrs [2;3] i) -> adjacent [2;3] i j) by (intros i j Hi Hj; apply (nbrs_spec [2;3] i j Hp); [exact Hi|exact Hj]).
    assert (F : forall k z, 0 <= k -> nth_error m_small (Z.to_nat k) = Some z -> In z [1;2;3;4] -> free (imap [2;3] m_small) k).
    { intros k z Hk E Hz. destruct (vgrid_get [2;3] (n1 : F64) (map z64 m_small) k (z64 z) eq_refl Hk) as [c [Hc Ev]].
      - rewrite nth_error_map. exact (f_equal (option_map z64) E).
      - exists c. split; [exact Hc|]. unfold isOccupied. rewrite Ev. destruct Hz as [<-|[<-|[<-|[<-|[]]]]]; vm_compute; reflexivity. }
    destruct (C104_no_slower_than_any_route_doubles [2;3] (imap [2;3] m_small) [0] _ _ h (slow64 (imap [2;3] m_small)) 0 5
      (0 + slow64 (imap [2;3] m_small) 1 + slow64 (imap [2;3] m_small) 3 + slow64 (imap [2;3] m_small) 5) HP Hrun) as [t [Ht _]].
    + destruct (precise_facts _ _ _ _ _ HP) as [_ [_ [_ [Hf _]]]]. intros i Hi. apply Hf, Hi.
    + left. reflexivity.
    + repeat (first [apply route_stay | eapply route_step]); first [apply A; [lia|cbn; auto 6]|eapply F; [lia|reflexivity|cbn; auto 6]].
    + eauto.
  - intros k s f Hk Hs Hf.
    assert (Hr : 0 <= k < box_size [2;3]) by (destruct Hk as [c [Hc _]]; apply vgrid_cell in Hc; exact (proj1 Hc)).
    pose proof (imap_late _ _ _ h k s S P Hrun Hr Hs) as Hs32.
    destruct (imap_facts _ _ _ S P) as [_ [[_ [_ [Hlo _]]] _]]. pose proof (Hlo k f Hk Hf) as [Hf4 _].
    unfold root_dim. change (Z.of_nat (length [2;3])) with 2. revert E0 E1 E2 E3. generalize (eb16 [2;3]%Z) (ea16 [2;3]%Z). intros eb ea E0 E1 E2 E3.
    assert (S0 : (0 < sqrt 2)%R) by (apply sqrt_lt_R0; lra).
    assert (S2 : (sqrt 2 <= 2)%R) by (rewrite <- (sqrt_square 2) at 2 by lra; apply sqrt_le_1; lra).
    assert (Q : (1 / 8 <= f / sqrt 2)%R).
    { apply Rmult_le_reg_r with (sqrt 2)%R; [exact S0|]. replace (f / sqrt 2 * sqrt 2)%R with f by (field; lra). lra. }
    revert Q. generalize (f / sqrt 2)%R. intros q Q. nra.
Qed.

Lemma imap_get dims vs i z : small dims vs -> 0 <= i -> nth_error vs (Z.to_nat i) = Some z -> exists c, getCell (imap dims vs) i = Ok c /\ c_occ c = z64 z.
Proof.
  intros [_ [_ [Hl _]]] Hi Hz. apply (vgrid_get dims); [rewrite map_length; exact Hl|exact Hi|]. rewrite nth_error_map, Hz. reflexivity.
Qed.

Example C109_case_doubles :
  fits [2;3] [0;0] [4;4] /\ carried [2;3] [4;4] (place [0;0]) (imap [2;3] m_small) (imap [4;4] m_large) [0] [0;3] /\
  walled [2;3] [0;0] [4;4] (imap [4;4] m_large) [0;3] /\
  precise [2;3] (imap [2;3] m_small) [0] (eb16 [2;3]%Z) (ea16 [2;3]%Z) /\
  precise [4;4] (imap [4;4] m_large) [0;3] (eb16 [4;4]%Z) (ea16 [4;4]%Z) /\
  (eb16 [2;3]%Z <= / 10 ^ 7 /\ ea16 [2;3]%Z <= / 10 ^ 7 /\ eb16 [4;4]%Z <= / 10 ^ 7 /\ ea16 [4;4]%Z <= / 10 ^ 7)%R /\
  (exists h, complete64 [2;3] (imap [2;3] m_small) [0] h /\ any64 [2;3] (imap [2;3] m_small) [0] noGoal h) /\
  exists h', complete64 [4;4] (imap [4;4] m_large) [0;3] h' /\ any64 [4;4] (imap [4;4] m_large) [0;3] noGoal h'.
Proof.
  pose proof m_small_ok as Sa. pose proof m_large_ok as Sb. pose proof (one_point [2;3] 0 ltac:(cbn; lia)) as Pa.
  assert (Pb : points_ok [4;4] [0;3]).
  { split; [repeat (constructor; [cbn; lia|]); constructor|]. intros i [<-|[<-|[]]]; cbn; lia. }
  assert (S2 : separated [4;4] (imap [4;4] m_large) [0;3]).
  { intros i j Hi Hj Hij. exfalso. assert (Hp : proper [4;4]) by (repeat constructor; lia).
    assert (Hir : 0 <= i < box_size [4;4]) by (cbn; destruct Hi as [<-|[<-|[]]]; lia).
    apply (nbrs_spec [4;4] i j Hp Hir) in Hij. destruct Hi as [<-|[<-|[]]]; vm_compute in Hij; destruct Hj as [<-|[<-|[]]]; intuition discriminate. }
  split; [exact large_fits|]. split; [|split; [|split; [apply imap_precise; assumption|]; split; [apply imap_precise; assumption|]; split; [|split]]].
  - split; [reflexivity|]. intros cs Hcs. in2 Hcs x y. assert (Hx2 : x = 0 \/ x = 1) by lia. assert (Hy3 : y = 0 \/ y = 1 \/ y = 2) by lia.
    destruct Hx2 as [-> | ->]; destruct Hy3 as [-> |[-> | ->]]; (split; [|cbn; lia]);
    match goal with |- exists c c', getCell _ ?i = _ /\ getCell _ ?j = _ /\ _ =>
      destruct (imap_get [2;3] m_small i _ Sa ltac:(cbn; lia) eq_refl) as [c [Hc Hv]];
      destruct (imap_get [4;4] m_large j _ Sb ltac:(cbn; lia) eq_refl) as [c' [Hc' Hv']] end;
    (exists c, c'; split; [exact Hc|]; split; [exact Hc'|congruence]).
  - apply large_walled. intros e He. split; [|cbn in He |- *; lia].
    cbn in He. destruct He as [<-|[<-|[<-|[<-|[<-|[]]]]]];
    match goal with |- obstacle _ ?e => destruct (imap_get [4;4] m_large e _ Sb ltac:(lia) eq_refl) as [c [Hc Hv]] end;
    (exists c; split; [exact Hc|unfold isOccupied; rewrite Hv; vm_compute; reflexivity]).
  - destruct (small_errors _ _ Sa) as [[_ E1] [_ E2]]. destruct (small_errors _ _ Sb) as [[_ E3] [_ E4]]. auto.
  - destruct (imap_run _ _ _ Sa Pa (separated_one _ _ _)) as [h [H1 H2]]. eauto.
  - destruct (imap_run _ _ _ Sb Pb S2) as [h [H1 H2]]. eauto.
Qed.

(** Prop_Sweep.v - property theorems C29-C35 (FSM, LSM, DDQM) and C49. *)
From Coq Require Import Reals Lra Permutation Sorted.
From Verif Require Import Base BaseFacts Num NumXR NumF64 NumLaws NumWf Grid GridFacts GridUpd GridMore
  Eikonal FMMModel HeapRef HeapLaws SweepModel QueueModel Spec Obs Solution EikR Frame FMMStruct XGrid FMMAbs FMMX
  Examples SweepOrder Relax Term SweepX Prop_FMM.
Open Scope Z_scope.

(** ** C29 *)

Section Order.
Context {N : Num}.

(** the cells a sweep may call solveForIdx on *)
Definition freeb (g : grid N) (i : Z) : bool :=
  match getCell g i with Ok c => negb (isOccupied c) | Fail _ => false end.

(** a cell update that leaves the map alone *)
Definition keeps_map (solve : sw_state -> Z -> res (sw_state (N := N))) : Prop :=
  forall s i s', freeb (sw_g s) i = true -> solve s i = Ok s' ->
    length (g_cells (sw_g s')) = length (g_cells (sw_g s)) /\
    forall j, freeb (sw_g s') j = freeb (sw_g s) j.

Lemma getCell_total_len (g g' : grid N) i c : length (g_cells g') = length (g_cells g) -> getCell g i = Ok c ->
  exists c', getCell g' i = Ok c'.
Proof.
  intros Hl Hc. pose proof (getCell_range _ _ _ Hc) as Hr. apply vget_in_range. lia.
Qed.

Lemma frame_freeb I (g g' : grid N) j : frame I g g' -> freeb g' j = freeb g j.
Proof.
  intros [_ [_ [_ [_ [Hl H]]]]]. unfold freeb. destruct (getCell g j) as [c|e] eqn:E.
  - destruct (H j c E) as [c' [-> [Ho _]]]. unfold isOccupied. rewrite Ho. reflexivity.
  - destruct (getCell g' j) as [c'|e'] eqn:E'; [|reflexivity].
    destruct (getCell_total_len g' g j c' (eq_sym Hl) E'). congruence.
Qed.

Lemma freeb_cell (g : grid N) i : freeb g i = true -> exists c, getCell g i = Ok c /\ isOccupied c = false.
Proof.
  unfold freeb. destruct (getCell g i) as [c|]; [|discriminate]. intros H. exists c. split; [reflexivity|].
  destruct (isOccupied c); [discriminate|reflexivity].
Qed.

Lemma frames_keep solve : solve_frames (N := N) (fun _ => False) solve -> keeps_map solve.
Proof.
  intros H s i s' Hf E. destruct (freeb_cell _ _ Hf) as [c [Hc Ho]]. specialize (H s i s' c Hc Ho E).
  split; [apply H|]. intros j. eapply frame_freeb; eauto.
Qed.

Lemma visit_filter solve l : keeps_map solve -> forall s : sw_state (N := N),
  (forall i, In i l -> exists c, getCell (sw_g s) i = Ok c) ->
  foldM (visit solve) l s = foldM solve (filter (freeb (sw_g s)) l) s.
Proof.
  intros Hk. induction l as [|i l IH]; intros s Hin; [reflexivity|]. cbn [foldM filter].
  destruct (Hin i (or_introl eq_refl)) as [c Hc].
  destruct (freeb (sw_g s) i) eqn:Ef.
  - cbn [foldM]. unfold visit at 1. rewrite Hc. cbn [bind].
    destruct (freeb_cell _ _ Ef) as [c' [Hc' Ho]]. assert (c' = c) by congruence. subst. rewrite Ho.
    destruct (solve s i) as [s'|e] eqn:Es; cbn [bind]; [|reflexivity].
    destruct (Hk s i s' Ef Es) as [Hl Hfr]. rewrite IH.
    + f_equal. apply filter_ext. exact Hfr.
    + intros j Hj. destruct (Hin j (or_intror Hj)) as [c' Hc2]. eapply getCell_total_len; eauto.
  - unfold visit at 1. rewrite Hc. cbn [bind]. unfold freeb in Ef. rewrite Hc in Ef.
    apply negb_false_iff in Ef. rewrite Ef. cbn [bind]. apply IH. intros j Hj. apply Hin. right; exact Hj.
Qed.

(** One sweep is the sequence of calls of solveForIdx on the free cells of the
    list [cells]: all coordinate tuples of the grid, each exactly once, ordered by
    the directions of the sweep. *)
Theorem C29_sweep_visits_each_free_cell_once_in_order :
  forall solve incs (s : sw_state (N := N)) dims,
  keeps_map solve -> shape_ok dims -> grid_ok dims (sw_g s) -> is_dir (length dims) incs ->
  exists cells : list (list Z),
    StronglySorted (sweep_before incs) cells /\
    (forall cs, In cs cells <-> in_box dims cs) /\ NoDup cells /\
    NoDup (map (cell_number dims) cells) /\
    (forall i, In i (map (cell_number dims) cells) <-> 0 <= i < box_size dims) /\
    one_sweep solve incs s = foldM solve (filter (freeb (sw_g s)) (map (cell_number dims) cells)) s.
Proof.
  intros solve incs s dims Hk [H2 Hlt] Hg Hd. pose proof (dims2_proper' _ H2) as Hp.
  pose proof (box_size_pos _ Hp) as Hb.
  exists (sweep_tuples incs dims).
  pose proof (sweep_tuples_sorted incs dims Hd Hp) as HS.
  pose proof (sweep_order_perm incs dims Hd Hp) as HP.
  assert (Hr : forall i, In i (sweep_order incs dims) <-> 0 <= i < box_size dims).
  { intros i. split; intros H.
    - eapply Permutation_in in H; [|exact HP]. apply in_zseq in H. lia.
    - eapply Permutation_in; [symmetry; exact HP|]. apply in_zseq. lia. }
  split; [exact HS|]. split; [intros cs; apply in_sweep_tuples; auto|].
  split; [eapply SSorted_NoDup; [apply sweep_before_irrefl|exact HS]|].
  split; [eapply Permutation_NoDup; [symmetry; exact HP|apply NoDup_zseq]|].
  split; [exact Hr|].
  change (map (cell_number dims) (sweep_tuples incs dims)) with (sweep_order incs dims).
  rewrite (one_sweep_eq dims H2 Hlt (grid_ok dims) (fun g H => H) solve incs s Hg Hd).
  apply visit_filter; [exact Hk|]. intros i Hi. apply Hr in Hi. eapply getCell_in; eauto.
Qed.

(** the two updates used with it keep the map *)
Theorem C29_applies_to_fsm_and_lsm : forall goal,
  keeps_map (fsm_solveForIdx goal) /\ keeps_map (lsm_solveForIdx goal).
Proof. intros goal. split; apply frames_keep; [apply fsm_frames|apply lsm_frames]. Qed.

End Order.
Print Assumptions C29_sweep_visits_each_free_cell_once_in_order.

(** a sweep of a 3x3 grid with directions (+,-): rows from the last to the first *)
Example C29_case :
  one_sweep (N := XR) (fun s i => if i =? 2 then Fail (Exit 7) else Ok s) [1; -1] (mkSw ex_grid false false) = Fail (Exit 7) /\
  sweep_order [1; -1] [3;3] = [6;7;8;3;4;5;0;1;2] /\ is_dir 2 [1;-1] /\ sweep_before [1;-1] [2;2] [0;1].
Proof.
  split; [|split; [reflexivity|split; [|left; right; split; [reflexivity|cbn; lia]]]].
  - assert (Hk : keeps_map (N := XR) (fun s i => if i =? 2 then Fail (Exit 7) else Ok s)).
    { intros s i s' _ H. destruct (i =? 2); [discriminate|]. injection H as <-. auto. }
    assert (Hd : is_dir (length [3;3]) [1;-1]) by (split; [reflexivity|repeat constructor; lia]).
    destruct (C29_sweep_visits_each_free_cell_once_in_order _ [1;-1] (mkSw ex_grid false false) [3;3] Hk) as [cells [_ [_ [_ [_ [Hin ->]]]]]]; auto.
    { split; [repeat constructor; lia|cbn; lia]. } { exact ex_grid_ok. }
    assert (H2 : In 2 (filter (freeb ex_grid) (map (cell_number [3;3]) cells))).
    { apply filter_In. split; [apply Hin; cbn; lia|]. unfold freeb.
      destruct (getCell_in [3;3] ex_grid 2 ex_grid_ok ltac:(cbn; lia)) as [c Hc]. rewrite Hc.
      apply ex_grid_cells in Hc. destruct Hc as [_ ->]. apply negb_true_iff. apply (nl_1_free XR XR_laws). }
    revert H2. cbn [sw_g]. generalize (mkSw ex_grid false false). induction (filter _ _) as [|i l IH]; [intros ? []|].
    intros s [->|H]; [reflexivity|]. cbn [foldM]. destruct (i =? 2); [reflexivity|]. cbn [bind]. apply IH, H.
  - split; [reflexivity|repeat constructor; lia].
Qed.

(** ** C30 *)

(** the directions used by the k-th sweep after the start ([setSweep] called k times) *)
Fixpoint after_sweeps (k : nat) (incs : list Z) : list Z :=
  match k with O => incs | S k => next_incs (after_sweeps k incs) end.

Theorem C30_directions_cycle_through_all :
  forall n incs start, is_dir n incs ->
  (forall k, is_dir n (after_sweeps k incs)) /\
  (forall d, is_dir n d -> exists k, (start <= k < start + 2 ^ n)%nat /\ after_sweeps k incs = d /\
                            forall k', (start <= k' < start + 2 ^ n)%nat -> after_sweeps k' incs = d -> k' = k) /\
  (forall k, after_sweeps (k + 2 ^ n) incs = after_sweeps k incs).
Proof.
  intros n incs start Hd.
  assert (E : forall k, after_sweeps k incs = iter_dirs k incs) by (induction k as [|k IH]; cbn; congruence).
  split; [|split].
  - intros k. rewrite E. apply iter_dir, Hd.
  - intros d Hdd. destruct (iter_dirs_all n incs d start Hd Hdd) as [k [Hk Ek]]. exists k. split; [exact Hk|].
    split; [rewrite E; exact Ek|]. intros k' Hk' Ek'. rewrite E in Ek'.
    destruct (Nat.lt_trichotomy k k') as [H|[H|H]]; [exfalso|congruence|exfalso].
    + apply (iter_dirs_distinct n incs k k' Hd); [lia|congruence].
    + apply (iter_dirs_distinct n incs k' k Hd); [lia|congruence].
  - intros k. rewrite !E. apply iter_period, Hd.
Qed.
Print Assumptions C30_directions_cycle_through_all.

(** the state setup() leaves is a combination of directions *)
Theorem C30_initial_directions : forall n, is_dir n (init_incs n).
Proof.
  intros n. split; [apply repeat_length|]. apply Forall_forall. intros x Hx. apply repeat_spec in Hx. auto.
Qed.

Example C30_case : map (fun k => after_sweeps k (init_incs 2)) [1;2;3;4;5]%nat
  = [[-1;-1]; [1;-1]; [-1;1]; [1;1]; [-1;-1]].
Proof. reflexivity. Qed.

(** ** C31 and C33: solutions *)

Theorem C31_fsm_solves_eikonal :
  forall dims (g : grid XR) init fuel maxSweeps incs s n incs',
  exact_problem dims g init -> is_dir (length dims) incs ->
  fsm_run fuel maxSweeps noGoal init 0 incs g = Ok (s, n, incs') -> n < maxSweeps ->
  solution dims (fun i => In i init) (free g) (slow g) (2 * Rmargin) (times (sw_g s)).
Proof.
  intros dims g init fuel ms incs s n incs' [[H2 Hlt] [[Hg Hc] [Hre [Hnd Hr]]]] Hd Hrun Hn.
  assert (Hfr : forall i c, getCell g i = Ok c -> c_val c = XPInf) by (intros i c K; apply (Hc i c K)).
  destruct (fsm_run_X dims H2 Hlt init Hr g Hg Hre Hfr fuel ms noGoal 0 incs _ Hd Hrun) as [G A].
  apply (settled_all_solution dims H2 init g s.(sw_g) G).
  apply A; [|exact Hn]. unfold unset, noGoal. lia.
Qed.
Print Assumptions C31_fsm_solves_eikonal.

Theorem C33_lsm_solves_eikonal :
  forall dims (g : grid XR) init fuel maxSweeps incs s n incs',
  exact_problem dims g init -> is_dir (length dims) incs ->
  lsm_run fuel maxSweeps noGoal init 0 incs g = Ok (s, n, incs') -> n < maxSweeps ->
  solution dims (fun i => In i init) (free g) (slow g) (2 * Rmargin) (times (sw_g s)).
Proof.
  intros dims g init fuel ms incs s n incs' [[H2 Hlt] [[Hg Hc] [Hre [Hnd Hr]]]] Hd Hrun Hn.
  assert (Hfr : forall i c, getCell g i = Ok c -> c_val c = XPInf) by (intros i c K; apply (Hc i c K)).
  destruct (lsm_run_X dims H2 Hlt init Hr g Hg Hre Hfr fuel ms noGoal 0 incs _ Hd Hrun) as [G A].
  apply (settled_all_solution dims H2 init g s.(sw_g) G).
  apply A; [|exact Hn]. unfold unset, noGoal. lia.
Qed.
Print Assumptions C33_lsm_solves_eikonal.

(** *** times never increase *)
Section NeverLater.
Context {N : Num}.
Variable L : NumLaws N.

(** every cell has the same time in both grids, or a better one in the second *)
Definition never_later (g g' : grid N) : Prop :=
  forall i t, time_is g i t -> exists t', time_is g' i t' /\ (t' = t \/ isTimeBetterThan t' t = true).

Lemma nlat_refl g : never_later g g.
Proof. intros i t H. eauto. Qed.

Lemma nlat_trans g1 g2 g3 : never_later g1 g2 -> never_later g2 g3 -> never_later g1 g3.
Proof.
  intros A B i t H. destruct (A i t H) as [t' [H1 H2]]. destruct (B i t' H1) as [t2 [H3 H4]]. exists t2. split; [exact H3|].
  destruct H2 as [->|H2], H4 as [->|H4]; auto. right. eapply better_trans; eauto.
Qed.

Lemma nlat_state (g : grid N) i s g' : setState g i s = Ok g' -> never_later g g'.
Proof.
  intros H j t Hj. exists t. split; [|auto]. unfold time_is, getArrivalTime in *. rewrite (updCell_get _ _ _ _ j H).
  destruct (getCell g j); [|discriminate]. destruct (i =? j); exact Hj.
Qed.

Lemma nlat_val (g : grid N) i c t g' : getCell g i = Ok c -> isTimeBetterThan t (c_val c) = true ->
  setArrivalTime g i t = Ok g' -> never_later g g'.
Proof.
  intros Hc Hb H j u Hj. unfold time_is, getArrivalTime in *. rewrite (updCell_get _ _ _ _ j H).
  destruct (Z.eqb_spec i j) as [<-|Hne].
  - rewrite Hc in *. cbn in *. injection Hj as <-. eauto.
  - exists u. auto.
Qed.

Lemma fsm_later goal s i s' : fsm_solveForIdx goal s i = Ok s' -> never_later (sw_g s) (sw_g s').
Proof.
  intros H. unfold fsm_solveForIdx in H. apply bind_ok in H. destruct H as [p [Hp H]].
  apply bind_ok in H. destruct H as [t [_ H]]. destruct (isTimeBetterThan t p) eqn:Eb.
  - apply bind_ok in H. destruct H as [g' [Hg H]]. injection H as <-. cbn.
    unfold getArrivalTime in Hp. apply bind_ok in Hp. destruct Hp as [c [Hc Hp]]. injection Hp as <-. eapply nlat_val; eauto.
  - destruct (negb (nisnan t) && negb (nisinf t) && (i =? goal)); injection H as <-; apply nlat_refl.
Qed.

Lemma lsm_later goal s i s' : lsm_solveForIdx goal s i = Ok s' -> never_later (sw_g s) (sw_g s').
Proof.
  intros H. unfold lsm_solveForIdx in H. apply bind_ok in H. destruct H as [c [Hc H]].
  destruct (fmstate_eqb (c_state c) OPEN); [|injection H as <-; apply nlat_refl].
  apply bind_ok in H. destruct H as [t [_ H]]. apply bind_ok in H. destruct H as [s1 [H1 H]].
  apply bind_ok in H. destruct H as [g3 [H3 H]]. injection H as <-. cbn.
  eapply nlat_trans; [|eapply nlat_state; eauto].
  destruct (isTimeBetterThan t (c_val c)) eqn:Eb.
  - apply bind_ok in H1. destruct H1 as [g1 [Hg1 H1]]. apply bind_ok in H1. destruct H1 as [ns [_ H1]].
    apply bind_ok in H1. destruct H1 as [g2 [Hg2 H1]]. injection H1 as <-. cbn.
    refine (foldM_inv_partial (fun g => never_later (sw_g s) g) _ _ _ _ _ _ Hg2).
    + eapply nlat_val; eauto.
    + intros g j g' _ HF Hg. apply bind_ok in Hg. destruct Hg as [v [_ Hg]].
      destruct (isTimeBetterThan t v); [|injection Hg as <-; exact HF].
      eapply nlat_trans; [exact HF|]. eapply nlat_state; eauto.
  - destruct (negb (nisnan t) && negb (nisinf t) && (i =? goal)); injection H1 as <-; apply nlat_refl.
Qed.

Lemma sweep_later solve incs (s s' : sw_state (N := N)) :
  (forall s i s', solve s i = Ok s' -> never_later (sw_g s) (sw_g s')) ->
  one_sweep solve incs s = Ok s' -> never_later (sw_g s) (sw_g s').
Proof.
  intros Hs H. unfold one_sweep in H.
  refine (recIter_inv (fun x => never_later (sw_g s) (sw_g x)) _ _ _ _ _ _ (nlat_refl _) H).
  intros s1 i s2 HF H1. unfold visit in H1. apply bind_ok in H1. destruct H1 as [c [_ H1]].
  destruct (isOccupied c); [injection H1 as <-; exact HF|]. eapply nlat_trans; eauto.
Qed.

Lemma loop_later solve ms : (forall s i s', solve s i = Ok s' -> never_later (sw_g s) (sw_g s')) ->
  forall fuel sweeps incs (s : sw_state (N := N)) s' n incs',
  sweep_loop solve fuel ms sweeps incs s = Ok (s', n, incs') -> never_later (sw_g s) (sw_g s').
Proof.
  intros Hs. induction fuel as [|k IH]; intros sweeps incs s s' n incs' H; cbn [sweep_loop] in H;
    destruct (sw_keep s && negb (sw_stop s) && (sweeps <? ms)); try discriminate.
  2: apply bind_ok in H; destruct H as [s1 [H1 H]]; apply sweep_later in H1; [|exact Hs];
     eapply nlat_trans; [exact H1|eapply IH; eauto].
  all: injection H as <- <- <-; apply nlat_refl.
Qed.

Lemma loop_prefix solve m1 m2 : (forall s i s', solve s i = Ok s' -> never_later (sw_g s) (sw_g s')) -> m1 <= m2 ->
  forall f1 f2 sweeps incs (s : sw_state (N := N)) s1 n1 i1 s2 n2 i2,
  sweep_loop solve f1 m1 sweeps incs s = Ok (s1, n1, i1) -> sweep_loop solve f2 m2 sweeps incs s = Ok (s2, n2, i2) ->
  never_later (sw_g s1) (sw_g s2).
Proof.
  intros Hs Hm. induction f1 as [|f1 IH]; intros f2 sweeps incs s s1 n1 i1 s2 n2 i2 H1 H2; cbn [sweep_loop] in H1;
    destruct (sw_keep s && negb (sw_stop s) && (sweeps <? m1)) eqn:E1; try discriminate.
  2:{ assert (E2 : sw_keep s && negb (sw_stop s) && (sweeps <? m2) = true).
      { apply andb_prop in E1. destruct E1 as [-> E1]. apply Z.ltb_lt in E1. cbn. apply Z.ltb_lt. lia. }
      destruct f2 as [|f2]; cbn [sweep_loop] in H2; rewrite E2 in H2; [discriminate|].
      apply bind_ok in H1. destruct H1 as [sa [Ha H1]]. apply bind_ok in H2. destruct H2 as [sb [Hb H2]].
      assert (sa = sb) by congruence. subst. eapply IH; eauto. }
  all: injection H1 as <- <- <-; eapply loop_later; eauto.
Qed.
End NeverLater.

(** After more sweeps no cell is later: compare any two sweep limits, on any
    arithmetic, map, goal and start state.  The runs include all intermediate
    states between sweeps. *)
Theorem C31_times_never_increase :
  forall (N : Num) (L : NumLaws N) m1 m2 f1 f2 goal init sweeps incs (g : grid N) s1 n1 i1 s2 n2 i2,
  m1 <= m2 ->
  fsm_run f1 m1 goal init sweeps incs g = Ok (s1, n1, i1) ->
  fsm_run f2 m2 goal init sweeps incs g = Ok (s2, n2, i2) -> never_later (sw_g s1) (sw_g s2).
Proof.
  intros N L m1 m2 f1 f2 goal init sweeps incs g s1 n1 i1 s2 n2 i2 Hm H1 H2. unfold fsm_run in *.
  apply bind_ok in H1. destruct H1 as [g1 [Hg1 H1]]. apply bind_ok in H2. destruct H2 as [g2 [Hg2 H2]].
  assert (g1 = g2) by congruence. subst. eapply (loop_prefix L); eauto using fsm_later.
Qed.

(** inside a sweep: each call of solveForIdx lowers a time or leaves all alone *)
Theorem C31_one_update_never_increases :
  forall (N : Num) (L : NumLaws N) goal s i s',
  fsm_solveForIdx (N := N) goal s i = Ok s' -> never_later (sw_g s) (sw_g s') /\
  (forall j, j <> i -> getArrivalTime (sw_g s') j = getArrivalTime (sw_g s) j) /\
  (sw_keep s' = false -> sw_g s' = sw_g s).
Proof.
  intros N L goal s i s' H. split; [eapply fsm_later; eauto|].
  unfold fsm_solveForIdx in H. apply bind_ok in H. destruct H as [p [Hp H]].
  apply bind_ok in H. destruct H as [t [_ H]]. destruct (isTimeBetterThan t p) eqn:Eb.
  - apply bind_ok in H. destruct H as [g' [Hg H]]. injection H as <-. cbn. split; [|discriminate].
    intros j Hj. unfold getArrivalTime. rewrite (updCell_get _ _ _ _ j Hg). destruct (Z.eqb_spec i j); congruence.
  - destruct (negb (nisnan t) && negb (nisinf t) && (i =? goal)); injection H as <-; split; auto.
Qed.
Print Assumptions C31_times_never_increase.

(** the same for LSM *)
Theorem C33_times_never_increase :
  forall (N : Num) (L : NumLaws N) m1 m2 f1 f2 goal init sweeps incs (g : grid N) s1 n1 i1 s2 n2 i2,
  m1 <= m2 ->
  lsm_run f1 m1 goal init sweeps incs g = Ok (s1, n1, i1) ->
  lsm_run f2 m2 goal init sweeps incs g = Ok (s2, n2, i2) -> never_later (sw_g s1) (sw_g s2).
Proof.
  intros N L m1 m2 f1 f2 goal init sweeps incs g s1 n1 i1 s2 n2 i2 Hm H1 H2. unfold lsm_run in *.
  apply bind_ok in H1. destruct H1 as [g1 [Hg1 H1]]. apply bind_ok in H2. destruct H2 as [g2 [Hg2 H2]].
  assert (g1 = g2) by congruence. subst.
  apply bind_ok in H1. destruct H1 as [g1 [Hg3 H1]]. apply bind_ok in H2. destruct H2 as [g4 [Hg4 H2]].
  assert (g1 = g4) by congruence. subst. eapply (loop_prefix L); eauto using lsm_later.
Qed.

(** ** C32 *)

(** IEEE doubles: any velocities, spacing, old times, goal, sweep limit. *)
Theorem C32_fsm_terminates_doubles :
  forall dims (g : grid F64) init maxSweeps goal sweeps incs,
  shape_ok dims -> grid_ok dims g -> (forall i, In i init -> 0 <= i < box_size dims) -> is_dir (length dims) incs ->
  exists k r, forall fuel, (k <= fuel)%nat -> fsm_run fuel maxSweeps goal init sweeps incs g = Ok r.
Proof.
  intros dims g init ms goal sweeps incs [H2 Hlt] Hg Hr Hd.
  eapply (fsm_terminates F64_laws dims H2 Hlt (GI64 dims) Good64); auto; try exact Hg; try apply GI64_upd; try apply Good64_wf;
    intros; eapply updCell_grid_ok; eauto.
Qed.
Print Assumptions C32_fsm_terminates_doubles.

Theorem C32_lsm_terminates_doubles :
  forall dims (g : grid F64) init maxSweeps goal sweeps incs,
  shape_ok dims -> grid_ok dims g -> (forall i, In i init -> 0 <= i < box_size dims) -> is_dir (length dims) incs ->
  exists k r, forall fuel, (k <= fuel)%nat -> lsm_run fuel maxSweeps goal init sweeps incs g = Ok r.
Proof.
  intros dims g init ms goal sweeps incs [H2 Hlt] Hg Hr Hd.
  eapply (lsm_terminates F64_laws dims H2 Hlt (GI64 dims) Good64); auto; try exact Hg; try apply GI64_upd; try apply Good64_wf;
    intros; eapply updCell_grid_ok; eauto.
Qed.

Lemma problem_GIX dims g init : exact_problem dims g init -> GIX dims g.
Proof.
  intros [_ [[Hg Hc] [Hre _]]]. split; [exact Hg|]. split; [|exact Hre].
  intros i c K. left. apply (Hc i c K).
Qed.

Theorem C32_fsm_terminates_exact :
  forall dims (g : grid XR) init maxSweeps goal sweeps incs,
  exact_problem dims g init -> is_dir (length dims) incs ->
  exists k r, forall fuel, (k <= fuel)%nat -> fsm_run fuel maxSweeps goal init sweeps incs g = Ok r.
Proof.
  intros dims g init ms goal sweeps incs HP Hd. pose proof (problem_GIX _ _ _ HP) as G.
  destruct HP as [[H2 Hlt] [_ [_ [_ Hr]]]].
  eapply (fsm_terminates XR_laws dims H2 Hlt (GIX dims) xgood); auto;
    solve [intros g1 [A _]; exact A|apply GIX_state|apply GIX_src|apply GIX_upd; assumption|apply better_wf_XR].
Qed.
Print Assumptions C32_fsm_terminates_exact.

Theorem C32_lsm_terminates_exact :
  forall dims (g : grid XR) init maxSweeps goal sweeps incs,
  exact_problem dims g init -> is_dir (length dims) incs ->
  exists k r, forall fuel, (k <= fuel)%nat -> lsm_run fuel maxSweeps goal init sweeps incs g = Ok r.
Proof.
  intros dims g init ms goal sweeps incs HP Hd. pose proof (problem_GIX _ _ _ HP) as G.
  destruct HP as [[H2 Hlt] [_ [_ [_ Hr]]]].
  eapply (lsm_terminates XR_laws dims H2 Hlt (GIX dims) xgood); auto;
    solve [intros g1 [A _]; exact A|apply GIX_state|apply GIX_src|apply GIX_upd; assumption|apply better_wf_XR].
Qed.

(** ... and without any limit: from some limit on the run is the same and stops
    because a sweep changed nothing (or the goal was met). *)
Theorem C32_fsm_stops_by_itself :
  forall dims (g : grid XR) init goal incs,
  exact_problem dims g init -> is_dir (length dims) incs ->
  exists k s n incs', forall maxSweeps fuel, n < maxSweeps -> (k <= fuel)%nat ->
    fsm_run fuel maxSweeps goal init 0 incs g = Ok (s, n, incs').
Proof.
  intros dims g init goal incs HP Hd. pose proof (problem_GIX _ _ _ HP) as G.
  destruct HP as [[H2 Hlt] [_ [_ [_ Hr]]]].
  eapply (fsm_terminates_free XR_laws dims H2 Hlt (GIX dims) xgood); auto;
    solve [intros g1 [A _]; exact A|apply GIX_state|apply GIX_src|apply GIX_upd; assumption|apply better_wf_XR].
Qed.

Theorem C32_fsm_stops_by_itself_doubles :
  forall dims (g : grid F64) init goal incs,
  shape_ok dims -> grid_ok dims g -> (forall i, In i init -> 0 <= i < box_size dims) -> is_dir (length dims) incs ->
  exists k s n incs', forall maxSweeps fuel, n < maxSweeps -> (k <= fuel)%nat ->
    fsm_run fuel maxSweeps goal init 0 incs g = Ok (s, n, incs').
Proof.
  intros dims g init goal incs [H2 Hlt] Hg Hr Hd.
  eapply (fsm_terminates_free F64_laws dims H2 Hlt (GI64 dims) Good64); auto; try exact Hg; try apply GI64_upd; try apply Good64_wf;
    intros; eapply updCell_grid_ok; eauto.
Qed.

(** ... and without any limit: from some limit on the run is the same and stops
    because a sweep changed nothing (or the goal was met). *)
Theorem C32_lsm_stops_by_itself :
  forall dims (g : grid XR) init goal incs,
  exact_problem dims g init -> is_dir (length dims) incs ->
  exists k s n incs', forall maxSweeps fuel, n < maxSweeps -> (k <= fuel)%nat ->
    lsm_run fuel maxSweeps goal init 0 incs g = Ok (s, n, incs').
Proof.
  intros dims g init goal incs HP Hd. pose proof (problem_GIX _ _ _ HP) as G.
  destruct HP as [[H2 Hlt] [_ [_ [_ Hr]]]].
  eapply (lsm_terminates_free XR_laws dims H2 Hlt (GIX dims) xgood); auto;
    solve [intros g1 [A _]; exact A|apply GIX_state|apply GIX_src|apply GIX_upd; assumption|apply better_wf_XR].
Qed.

Theorem C32_lsm_stops_by_itself_doubles :
  forall dims (g : grid F64) init goal incs,
  shape_ok dims -> grid_ok dims g -> (forall i, In i init -> 0 <= i < box_size dims) -> is_dir (length dims) incs ->
  exists k s n incs', forall maxSweeps fuel, n < maxSweeps -> (k <= fuel)%nat ->
    lsm_run fuel maxSweeps goal init 0 incs g = Ok (s, n, incs').
Proof.
  intros dims g init goal incs [H2 Hlt] Hg Hr Hd.
  eapply (lsm_terminates_free F64_laws dims H2 Hlt (GI64 dims) Good64); auto; try exact Hg; try apply GI64_upd; try apply Good64_wf;
    intros; eapply updCell_grid_ok; eauto.
Qed.

Lemma loop_bound {N : Num} solve ms fuel : forall sweeps incs (s : sw_state (N := N)) s' n incs',
  sweeps <= ms -> sweep_loop solve fuel ms sweeps incs s = Ok (s', n, incs') -> sweeps <= n <= ms.
Proof.
  induction fuel as [|k IH]; intros sweeps incs s s' n incs' Hle H; cbn [sweep_loop] in H;
    destruct (sw_keep s && negb (sw_stop s) && (sweeps <? ms)) eqn:E; try discriminate.
  2:{ apply bind_ok in H. destruct H as [s1 [_ H]]. apply andb_prop in E. destruct E as [_ E]. apply Z.ltb_lt in E.
      apply IH in H; lia. }
  all: injection H as <- <- <-; lia.
Qed.

(** never more than maxSweeps sweeps *)
Theorem C32_at_most_maxSweeps :
  forall (N : Num) maxSweeps goal init incs (g : grid N) fuel s n incs',
  0 <= maxSweeps ->
  (fsm_run fuel maxSweeps goal init 0 incs g = Ok (s, n, incs') -> 0 <= n <= maxSweeps) /\
  (lsm_run fuel maxSweeps goal init 0 incs g = Ok (s, n, incs') -> 0 <= n <= maxSweeps).
Proof.
  intros N ms goal init incs g fuel s n incs' Hms. split; intros H.
  - unfold fsm_run in H. apply bind_ok in H. destruct H as [g1 [_ H]]. eapply loop_bound; eauto.
  - unfold lsm_run in H. apply bind_ok in H. destruct H as [g1 [_ H]]. apply bind_ok in H. destruct H as [g2 [_ H]].
    eapply loop_bound; eauto.
Qed.

(** ** C35 *)
Theorem C35_ddqm_terminates_exact :
  forall dims (g : grid XR) init goal th step,
  exact_problem dims g init ->
  exists k r, forall fuel, (k <= fuel)%nat -> ddqm_run fuel goal init th step g = Ok r.
Proof.
  intros dims g init goal th step HP. pose proof (problem_GIX _ _ _ HP) as G.
  destruct HP as [[H2 Hlt] [_ [_ [_ Hr]]]].
  eapply (ddqm_terminates XR_laws dims H2 Hlt (GIX dims) xgood); auto;
    solve [intros g1 [A _]; exact A|apply GIX_state|apply GIX_src|apply GIX_upd; assumption|apply better_wf_XR].
Qed.
Print Assumptions C35_ddqm_terminates_exact.

Theorem C35_ddqm_terminates_doubles :
  forall dims (g : grid F64) init goal th step,
  shape_ok dims -> grid_ok dims g -> (forall i, In i init -> 0 <= i < box_size dims) ->
  exists k r, forall fuel, (k <= fuel)%nat -> ddqm_run fuel goal init th step g = Ok r.
Proof.
  intros dims g init goal th step [H2 Hlt] Hg Hr.
  eapply (ddqm_terminates F64_laws dims H2 Hlt (GI64 dims) Good64); auto; try exact Hg; try apply GI64_upd; try apply Good64_wf;
    intros; eapply updCell_grid_ok; eauto.
Qed.

Theorem C35_ddqm_solves_eikonal :
  forall dims (g : grid XR) init fuel th step s,
  exact_problem dims g init ->
  ddqm_run fuel noGoal init th step g = Ok s ->
  solution dims (fun i => In i init) (free g) (slow g) (2 * Rmargin) (times (dq_g s)).
Proof.
  intros dims g init fuel th step s [[H2 Hlt] [[Hg Hc] [Hre [Hnd Hr]]]] Hrun.
  assert (Hfr : forall i c, getCell g i = Ok c -> c_val c = XPInf) by (intros i c K; apply (Hc i c K)).
  destruct (ddqm_run_X dims H2 Hlt init Hr g Hg Hre Hfr fuel noGoal th step s Hrun) as [G A].
  apply (settled_all_solution dims H2 init g s.(dq_g) G).
  apply A. unfold unset, noGoal. lia.
Qed.
Print Assumptions C35_ddqm_solves_eikonal.

(** ** C34 *)

(** final arrival times of a complete run without goal; FMM needs that no free initial
    point is next to another initial point (see C16 and [C34_adjacent_initial_points_refuted]),
    the other three take any initial points *)
Inductive result_of (dims : list Z) (g : grid XR) (init : list Z) : time_map -> Prop :=
| res_fmm (HO : HeapOps XR) (HL : HeapLaws HO) fuel st log : separated dims g init ->
    fmm_outcome HO no_heur noGoal init g fuel st log -> result_of dims g init (times (fs_g st))
| res_fsm fuel maxSweeps s n incs :
    fsm_run fuel maxSweeps noGoal init 0 (init_incs (length dims)) g = Ok (s, n, incs) -> n < maxSweeps ->
    result_of dims g init (times (sw_g s))
| res_lsm fuel maxSweeps s n incs :
    lsm_run fuel maxSweeps noGoal init 0 (init_incs (length dims)) g = Ok (s, n, incs) -> n < maxSweeps ->
    result_of dims g init (times (sw_g s))
| res_ddqm fuel th step s :
    ddqm_run fuel noGoal init th step g = Ok s -> result_of dims g init (times (dq_g s)).

Lemma fmm_loop_fuel {N : Num} (HO : HeapOps N) cfg goal f1 : forall f2 st log r, (f1 <= f2)%nat ->
  fmm_loop HO f1 cfg goal st log = Ok r -> fmm_loop HO f2 cfg goal st log = Ok r.
Proof.
  induction f1 as [|f1 IH]; intros f2 st log r Hle H; [discriminate|]. destruct f2 as [|f2]; [lia|].
  cbn [fmm_loop] in *. destruct (fmm_step HO cfg st) as [[[m st']|]|]; cbn [bind] in *; auto.
  destruct (m =? goal); [exact H|]. apply IH; [lia|exact H].
Qed.

Lemma fmm_fuel {N : Num} (HO : HeapOps N) cfg goal init g f1 f2 st log : (f1 <= f2)%nat ->
  fmm_outcome HO cfg goal init g f1 st log -> fmm_outcome HO cfg goal init g f2 st log.
Proof.
  unfold fmm_outcome, fmm_run. intros Hle H. apply bind_ok in H. destruct H as [s [-> H]]. cbn [bind].
  eapply fmm_loop_fuel; eauto.
Qed.

Lemma result_solution dims g init T : exact_problem dims g init -> result_of dims g init T ->
  solution dims (fun i => In i init) (free g) (slow g) (2 * Rmargin) T.
Proof.
  intros HP [HO HL fuel st log Hs H|fuel ms s n incs H Hn|fuel ms s n incs H Hn|fuel th step s H].
  - eapply (C18_fmm_solves_eikonal HO HL dims g init (Nat.max fuel (S (Z.to_nat (box_size dims)))) st log); auto.
    + lia.
    + eapply fmm_fuel; [|exact H]. lia.
  - eapply C31_fsm_solves_eikonal; eauto. apply C30_initial_directions.
  - eapply C33_lsm_solves_eikonal; eauto. apply C30_initial_directions.
  - eapply C35_ddqm_solves_eikonal; eauto.
Qed.

Theorem C34_solvers_agree :
  forall dims (g : grid XR) init T U i,
  exact_problem dims g init ->
  result_of dims g init T -> result_of dims g init U -> 0 <= i < box_size dims ->
  match T i, U i with
  | Some t, Some u => (Rabs (t - u) <= 2 * Rmargin * IZR (box_size dims))%R
  | None, None => True
  | _, _ => False
  end.
Proof.
  intros dims g init T U i HP HT HU Hi.
  pose proof HP as [[H2 Hlt] [[Hg Hc] [Hre [Hnd Hr]]]].
  apply (solutions_agree dims (fun i => In i init) (free g) (slow g)); auto using result_solution, dims2_proper'.
  - intros k Hk. apply slow_pos; assumption.
  - intros k. apply in_dec, Z.eq_dec.
  - pose proof Rmargin_pos. lra.
Qed.
Print Assumptions C34_solvers_agree.

(** every one of the four solvers has a complete run on every such problem *)
Theorem C34_all_solvers_have_a_result :
  forall dims (g : grid XR) init, exact_problem dims g init ->
  (separated dims g init -> exists st log fuel, fmm_outcome RefHeap no_heur noGoal init g fuel st log) /\
  (exists maxSweeps s n incs fuel, fsm_run fuel maxSweeps noGoal init 0 (init_incs (length dims)) g = Ok (s, n, incs) /\ n < maxSweeps) /\
  (exists maxSweeps s n incs fuel, lsm_run fuel maxSweeps noGoal init 0 (init_incs (length dims)) g = Ok (s, n, incs) /\ n < maxSweeps) /\
  (exists s fuel, ddqm_run fuel noGoal init (XFin 0 : XR) (XFin 1) g = Ok s).
Proof.
  intros dims g init HP. split; [|split; [|split]].
  - intros Hs. destruct (C15_fmm_terminates_exact RefHeap (RefHeap_laws XR_laws) dims g init noGoal (S (Z.to_nat (box_size dims))) HP Hs) as [st [log [H _]]]; [lia|].
    eauto.
  - destruct (C32_fsm_stops_by_itself dims g init noGoal (init_incs (length dims)) HP (C30_initial_directions _)) as [k [s [n [incs H]]]].
    exists (n + 1), s, n, incs, k. split; [apply H; lia|lia].
  - destruct (C32_lsm_stops_by_itself dims g init noGoal (init_incs (length dims)) HP (C30_initial_directions _)) as [k [s [n [incs H]]]].
    exists (n + 1), s, n, incs, k. split; [apply H; lia|lia].
  - destruct (C35_ddqm_terminates_exact dims g init noGoal (XFin 0 : XR) (XFin 1 : XR) HP) as [k [r H]]. exists r, k. apply H. lia.
Qed.

Example C34_case : exact_problem [3;3] ex_grid [0;8] /\ separated [3;3] ex_grid [0;8] /\
  exists T U, result_of [3;3] ex_grid [0;8] T /\ result_of [3;3] ex_grid [0;8] U.
Proof.
  destruct C15_case as [HP [Hs _]]. split; [exact HP|]. split; [exact Hs|].
  destruct (C34_all_solvers_have_a_result _ _ _ HP) as [H0 [_ [[ms [s [n [incs [f2 [H2 Hn]]]]]] _]]]. destruct (H0 Hs) as [st [log [fuel H1]]].
  exists (times (fs_g st)), (times (sw_g s)). split.
  - exact (res_fmm _ _ _ RefHeap (RefHeap_laws XR_laws) fuel st log Hs H1).
  - exact (res_lsm _ _ _ f2 ms s n incs H2 Hn).
Qed.

(** two neighbouring initial points: FMM must not be asked, the other three agree *)
Example C34_case_adjacent : exact_problem [3;3] ex_grid [0;1] /\ adjacent [3;3] 0 1 /\ free ex_grid 1 /\
  exists T U V, result_of [3;3] ex_grid [0;1] T /\ result_of [3;3] ex_grid [0;1] U /\ result_of [3;3] ex_grid [0;1] V.
Proof.
  destruct C15_case as [HP _].
  assert (HP' : exact_problem [3;3] ex_grid [0;1]).
  { destruct HP as [A [B [C _]]]. split; [exact A|]. split; [exact B|]. split; [exact C|].
    split; [repeat constructor; cbn; intuition lia|]. intros i [<-|[<-|[]]]; cbn; lia. }
  split; [exact HP'|]. split; [apply nbrs_spec; [repeat constructor; lia|cbn; lia|vm_compute; auto]|].
  split; [eexists; split; [reflexivity|unfold isOccupied; rewrite xr_margin; cbn; apply Rltb_false; unfold Rmargin; lra]|].
  destruct (C34_all_solvers_have_a_result _ _ _ HP') as [_ [[m1 [s1 [n1 [i1 [f1 [H1 L1]]]]]] [[m2 [s2 [n2 [i2 [f2 [H2 L2]]]]]] [s3 [f3 H3]]]]].
  exists (times (sw_g s1)), (times (sw_g s2)), (times (dq_g s3)). split; [eapply res_fsm; eauto|]. split; [eapply res_lsm; eauto|eapply res_ddqm; eauto].
Qed.

Definition iszero64 (x : F64) : bool := match (x : f64) with BinarySingleNaN.B754_zero false => true | _ => false end.
Lemma iszero64_eq (x : F64) : iszero64 x = true -> x = n0.
Proof. unfold iszero64. destruct (x : f64) as [[]| | |]; try discriminate. intros _. reflexivity. Qed.

(** what the proviso for FMM is for: with neighbouring initial points FMM comes to its end with
    a time that FSM, LSM and DDQM do not report, half a unit later at least *)
Theorem C34_adjacent_initial_points_refuted :
  exists (g : grid F64) init st log s n incs s' n' incs' s'' i t,
    fmm_outcome (RefHeap (N := F64)) no_heur noGoal init g 40 st log /\
    fsm_run 40 40 noGoal init 0 (init_incs 2) g = Ok (s, n, incs) /\ n < 40 /\
    lsm_run 40 40 noGoal init 0 (init_incs 2) g = Ok (s', n', incs') /\ n' < 40 /\
    ddqm_run 40 noGoal init (n0 : F64) (n1 : F64) g = Ok s'' /\
    time_is (fs_g st) i t /\ nltb (ndiv n1 (nofZ 2)) t = true /\
    time_is (sw_g s) i n0 /\ time_is (sw_g s') i n0 /\ time_is (dq_g s'') i n0.
Proof.
  assert (H : match fmm_run (RefHeap (N := F64)) 40 no_heur noGoal [0;1] (new_grid [3;3] n1) (hempty _),
                    fsm_run 40 40 noGoal [0;1] 0 (init_incs 2) (new_grid [3;3] (n1 : F64)),
                    lsm_run 40 40 noGoal [0;1] 0 (init_incs 2) (new_grid [3;3] (n1 : F64)),
                    ddqm_run 40 noGoal [0;1] (n0 : F64) (n1 : F64) (new_grid [3;3] n1) with
              | Ok (st, _), Ok (s, n, _), Ok (s', n', _), Ok s'' =>
                match getArrivalTime (fs_g st) 1, getArrivalTime (sw_g s) 1, getArrivalTime (sw_g s') 1, getArrivalTime (dq_g s'') 1 with
                | Ok t, Ok a, Ok b, Ok c => nltb (ndiv n1 (nofZ 2)) t && iszero64 a && iszero64 b && iszero64 c && (n <? 40) && (n' <? 40)
                | _, _, _, _ => false end
              | _, _, _, _ => false end = true) by (vm_compute; reflexivity).
  exists (new_grid [3;3] n1), [0;1]. unfold fmm_outcome, time_is.
  destruct (fmm_run (RefHeap (N := F64)) 40 no_heur noGoal [0;1] (new_grid [3;3] n1) (hempty _)) as [[st log]|]; [|discriminate].
  destruct (fsm_run 40 40 noGoal [0;1] 0 (init_incs 2) (new_grid [3;3] (n1 : F64))) as [[[s n] incs]|]; [|discriminate].
  destruct (lsm_run 40 40 noGoal [0;1] 0 (init_incs 2) (new_grid [3;3] (n1 : F64))) as [[[s' n'] incs']|]; [|discriminate].
  destruct (ddqm_run 40 noGoal [0;1] (n0 : F64) (n1 : F64) (new_grid [3;3] n1)) as [s''|]; [|discriminate].
  destruct (getArrivalTime (fs_g st) 1) as [t|] eqn:E; [|discriminate]. destruct (getArrivalTime (sw_g s) 1) as [a|] eqn:Ea; [|discriminate].
  destruct (getArrivalTime (sw_g s') 1) as [b|] eqn:Eb; [|discriminate]. destruct (getArrivalTime (dq_g s'') 1) as [c|] eqn:Ec; [|discriminate].
  repeat (apply andb_true_iff in H; destruct H as [H ?]). apply Z.ltb_lt in H0, H1.
  apply iszero64_eq in H2, H3, H4. subst a b c.
  exists st, log, s, n, incs, s', n', incs', s'', 1, t. repeat (split; [first [reflexivity|assumption]|]). assumption.
Qed.
Print Assumptions C34_adjacent_initial_points_refuted.

(** ** C49 *)
Theorem C49_better_is_strict_order_doubles :
  (forall x : F64, isTimeBetterThan x x = false) /\
  (forall x y : F64, isTimeBetterThan x y = true -> isTimeBetterThan y x = false) /\
  (forall x y z : F64, isTimeBetterThan x y = true -> isTimeBetterThan y z = true -> isTimeBetterThan x z = true) /\
  (forall x y : F64, isTimeBetterThan x y = true -> nltb x y = true) /\
  well_founded (fun x y : F64 => isTimeBetterThan x y = true).
Proof.
  split; [apply (better_irrefl F64_laws)|]. split; [apply (better_asym F64_laws)|].
  split; [apply (better_trans F64_laws)|]. split; [apply (nl_better_lt F64 F64_laws)|]. exact better_wf_F64.
Qed.
Print Assumptions C49_better_is_strict_order_doubles.

(** no infinite sequence of doubles each better than the previous one *)
Theorem C49_no_infinite_improvement :
  forall seq : nat -> F64, ~ (forall k, isTimeBetterThan (seq (S k)) (seq k) = true).
Proof.
  intros seq H. assert (G : forall x, forall k, seq k = x -> False).
  { intros x. induction (better_wf_F64 x) as [x _ IH]. intros k <-. exact (IH _ (H k) (S k) eq_refl). }
  exact (G _ 0%nat eq_refl).
Qed.

(** the order is not vacuous, and the margin matters: 1 is better than 2 and than
    +infinity, 1 is not better than 1 + 2^-52 *)
Example C49_case :
  isTimeBetterThan (n1 : F64) (nofZ 2) && isTimeBetterThan (n1 : F64) ninf && negb (isTimeBetterThan (ninf : F64) ninf) &&
  nltb (n1 : F64) (ndiv (nofZ 4503599627370497) (nofZ 4503599627370496)) &&
  negb (isTimeBetterThan (n1 : F64) (ndiv (nofZ 4503599627370497) (nofZ 4503599627370496))) = true.
Proof. vm_compute. reflexivity. Qed.

(** ** the hypotheses of C31, C32, C33, C35 are met by the 3x3 map with an obstacle *)
Example C31_case : exact_problem [3;3] ex_grid [0;8] /\ is_dir 2 (init_incs 2) /\
  exists maxSweeps s n incs fuel, fsm_run fuel maxSweeps noGoal [0;8] 0 (init_incs 2) ex_grid = Ok (s, n, incs) /\ n < maxSweeps.
Proof.
  destruct C15_case as [HP [Hs _]]. split; [exact HP|]. split; [apply C30_initial_directions|].
  apply (C34_all_solvers_have_a_result _ _ _ HP).
Qed.

Example C33_case : exists maxSweeps s n incs fuel,
  lsm_run fuel maxSweeps noGoal [0;8] 0 (init_incs 2) ex_grid = Ok (s, n, incs) /\ n < maxSweeps.
Proof. destruct C15_case as [HP [Hs _]]. apply (C34_all_solvers_have_a_result _ _ _ HP). Qed.

Example C35_case : exists s fuel, ddqm_run fuel noGoal [0;8] (XFin 0 : XR) (XFin 1 : XR) ex_grid = Ok s.
Proof. destruct C15_case as [HP [Hs _]]. apply (C34_all_solvers_have_a_result _ _ _ HP). Qed.

(** doubles: 3 sweeps on a 3x3 unit grid (two to propagate, one to see no change),
    stopped earlier by a limit of 2 *)
Example C32_case :
  match fsm_run 20 100 noGoal [4] 0 (init_incs 2) (new_grid [3;3] (n1 : F64)),
        lsm_run 20 2 noGoal [4] 0 (init_incs 2) (new_grid [3;3] (n1 : F64)) with
  | Ok (_, n, _), Ok (_, m, _) => (n =? 3) && (m =? 2)
  | _, _ => false
  end = true.
Proof. vm_compute. reflexivity. Qed.

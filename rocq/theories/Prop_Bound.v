(** Prop_Bound.v - property theorems C52-C54: the exact discrete solution, and what
    every solver's result has to do with it. *)
From Coq Require Import Reals Lra.
From Verif Require Import Base BaseFacts Num NumXR NumF64 NumLaws Grid GridFacts GridUpd GridMore Eikonal
  FMMModel HeapRef HeapLaws SweepModel QueueModel UntidyModel Spec Obs EikR Solution XGrid FMMStruct FMMAbs FMMX Relax Exact Evolve Bound
  Prop_FMM Prop_Sweep.
Open Scope Z_scope.

(** ** C52 *)
Lemma free_dec {N : Num} (g : grid N) i : {free g i} + {~ free g i}.
Proof.
  unfold free. destruct (getCell g i) as [c|e]; [|right; intros [c [H _]]; discriminate].
  destruct (isOccupied c) eqn:E; [right; intros [c' [H K]]; congruence|left; eauto].
Defined.

Theorem C52_exact_solution_exists_and_is_unique :
  forall dims (g : grid XR) init, exact_problem dims g init ->
  exists X, exact_solution dims (fun i => In i init) (free g) (slow g) X /\
    forall Y, exact_solution dims (fun i => In i init) (free g) (slow g) Y -> forall i, Y i = X i.
Proof.
  intros dims g init [[H2 Hlt] [[Hg Hc] [Hre [Hnd Hr]]]]. pose proof (dims2_proper' _ H2) as Hp.
  assert (Hf : forall i, free g i -> (0 < slow g i)%R) by (intros i Hi; apply slow_pos; assumption).
  destruct (exact_exists dims init (free g) (slow g) Hp Hf (free_dec g) Hr) as [X HX].
  exists X. split; [exact HX|]. intros Y HY i. eapply (exact_unique dims init (free g) (slow g)); eauto.
Qed.
Print Assumptions C52_exact_solution_exists_and_is_unique.

(** FMM, FSM, LSM and DDQM (complete runs, no goal, exact arithmetic) never end
    below it and end at most 2*COMP_MARGIN per cell of the grid above it. *)
Theorem C52_solvers_are_close_to_the_exact_solution :
  forall dims (g : grid XR) init X T i,
  exact_problem dims g init -> result_of dims g init T ->
  exact_solution dims (fun i => In i init) (free g) (slow g) X -> 0 <= i < box_size dims ->
  match X i, T i with
  | Some x, Some t => (x <= t <= x + 2 * Rmargin * IZR (box_size dims))%R
  | None, None => True
  | _, _ => False
  end.
Proof.
  intros dims g init X T i HP HT HX Hi.
  pose proof HP as [[H2 Hlt] [[Hg Hc] [Hre [Hnd Hr]]]]. pose proof (dims2_proper' _ H2) as Hp.
  apply (exact_close dims init (free g) (slow g) Hp); auto.
  - intros k Hk. apply slow_pos; assumption.
  - pose proof Rmargin_pos. lra.
  - eapply result_solution; eauto.
Qed.
Print Assumptions C52_solvers_are_close_to_the_exact_solution.

(** ** C53 *)
Theorem C53_no_solver_is_below_the_exact_solution :
  forall dims (g : grid XR) init X g' i t,
  exact_problem dims g init -> exact_solution dims (fun i => In i init) (free g) (slow g) X ->
  solver_run g init g' -> times g' i = Some t -> exists x, X i = Some x /\ (x <= t)%R.
Proof.
  intros dims g init X g' i t [[H2 Hlt] [[Hg Hc] [Hre [Hnd Hr]]]] HX Hrun.
  assert (Hc' : forall i c, getCell g i = Ok c -> c_val c = XPInf) by (intros k c Hk; apply (Hc k c Hk)).
  destruct (ev_above dims init H2 Hlt X g g' Hg Hre HX Hc' (solver_ev _ _ _ Hrun)) as [_ A]. apply A.
Qed.
Print Assumptions C53_no_solver_is_below_the_exact_solution.

(** every time is then +infinity or a non-negative real: no NaN, no negative time *)
Theorem C53_times_are_infinite_or_nonnegative :
  forall dims (g : grid XR) init g' i c,
  exact_problem dims g init -> solver_run g init g' -> getCell g' i = Ok c ->
  c_val c = XPInf \/ exists t, c_val c = XFin t /\ (0 <= t)%R.
Proof.
  intros dims g init g' i c HP Hrun. pose proof HP as [[H2 Hlt] [[Hg Hc] [Hre [Hnd Hr]]]].
  destruct (C52_exact_solution_exists_and_is_unique _ _ _ HP) as [X [HX _]].
  assert (Hc' : forall i c, getCell g i = Ok c -> c_val c = XPInf) by (intros k ck Hk; apply (Hc k ck Hk)).
  destruct (ev_above dims init H2 Hlt X g g' Hg Hre HX Hc' (solver_ev _ _ _ Hrun)) as [A _]. apply A.
Qed.

(** ** C54 *)
Theorem C54_reached_cells_are_connected_to_a_source :
  forall (N : Num) (L : NumLaws N) dims (g : grid N) init g' i c,
  shape_ok dims -> clean_grid dims g -> solver_run g init g' ->
  getCell g' i = Ok c -> c_val c = ninf \/ reachable dims (fun i => In i init) (free g) i.
Proof.
  intros N L dims g init g' i c [H2 Hlt] [Hg Hc] Hrun.
  apply (ev_reachable L dims H2 Hlt init g g' Hg).
  - intros k ck Hk. apply (Hc k ck Hk).
  - apply solver_ev, Hrun.
Qed.
Print Assumptions C54_reached_cells_are_connected_to_a_source.

(** for IEEE doubles *)
Theorem C54_doubles :
  forall dims (g : grid F64) init g' i t,
  shape_ok dims -> clean_grid dims g -> solver_run g init g' -> time_is g' i t ->
  t <> ninf -> reachable dims (fun i => In i init) (free g) i.
Proof.
  intros dims g init g' i t Hs Hc Hrun Ht Hn. unfold time_is, getArrivalTime in Ht. apply bind_ok in Ht.
  destruct Ht as [c [Hcell Ht]]. injection Ht as <-.
  destruct (C54_reached_cells_are_connected_to_a_source F64 F64_laws dims g init g' i c Hs Hc Hrun Hcell) as [E|E]; [contradiction|exact E].
Qed.

(** ** cases *)
(** the 3x3 map of C15_case: the exact solution gives the neighbour of the source 1 *)
Example C52_case : exists X, exact_solution [3;3] (fun i => In i [0;8]) (free ex_grid) (slow ex_grid) X /\
  X 0 = Some 0%R /\ X 4 = None /\ X 1 <> None.
Proof.
  destruct C15_case as [HP [Hs [Hfr Hobs]]].
  destruct (C52_exact_solution_exists_and_is_unique _ _ _ HP) as [X [HX _]]. exists X. split; [exact HX|].
  assert (Hp : proper [3;3]) by (repeat constructor; lia).
  split; [apply (ex_src _ _ _ _ _ HX); left; reflexivity|]. split.
  - destruct (X 4) as [t|] eqn:E; [|reflexivity]. exfalso.
    destruct (ex_eq _ _ _ _ _ HX 4 t (dmins [3;3] X 4) E ltac:(cbn; lia) (dmins_spec [3;3] X 4 Hp ltac:(cbn; lia))) as [[c [Hc Ho]] _].
    destruct Hobs as [c' [Hc' Ho']]. congruence.
  - intros E. assert (H : X 0 = None).
    { eapply (ex_inf _ _ _ _ _ HX 1 0); eauto; [cbn; lia|cbn; lia|].
      apply (nbrs_spec [3;3] 1 0 Hp); [cbn; lia|]. cbn. auto. }
    rewrite (ex_src _ _ _ _ _ HX 0) in H; [discriminate|left; reflexivity].
Qed.

Example C53_case : exists g', solver_run ex_grid [0;8] g' /\ times g' 0 = Some 0%R.
Proof.
  destruct C15_case as [HP [Hs _]].
  destruct (proj1 (C34_all_solvers_have_a_result _ _ _ HP) Hs) as [st [log [fuel H1]]].
  exists (fs_g st). split; [eapply sr_fmm; exact H1|].
  pose proof (C16_sources_at_zero RefHeap (RefHeap_laws XR_laws) [3;3] ex_grid [0;8] noGoal (Nat.max fuel 10) st log 0 HP Hs) as H.
  unfold times. rewrite H; [reflexivity| | |left; reflexivity].
  - cbn [box_size fold_right]. lia.
  - eapply fmm_fuel; [|exact H1]. lia.
Qed.

(** doubles, a wall: cells behind it are never reached, and GMM does return *)
Definition c54_grid : grid F64 :=
  match foldM (fun g i => setVelocity g i n0) [1; 4; 7] (new_grid [3;3] (n1 : F64)) with Ok g => g | Fail _ => new_grid [3;3] n1 end.
Example C54_case :
  match gmm_run 60 (gmm_setup_dt (nofZ (-1)) c54_grid) noGoal [0] c54_grid with
  | Ok s => match getArrivalTime (gm_g s) 2, getArrivalTime (gm_g s) 3 with
            | Ok t, Ok u => nisinf t && negb (nisinf u) | _, _ => false end
  | Fail _ => false end = true.
Proof. vm_compute. reflexivity. Qed.

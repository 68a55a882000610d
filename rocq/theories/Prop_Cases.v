(** Prop_Cases.v - concrete cases meeting the hypotheses of theorems whose own files show none:
    C16-C19, C21, C39, C41, C56-C58, C65, C76 and C78. *)
From Coq Require Import Reals Lra.
From Verif Require Import Base BaseFacts Num NumXR NumF64 NumLaws Grid GridFacts GridUpd Spec Obs Eikonal
  FMMModel HeapRef HeapLaws SweepModel QueueModel UntidyModel SolverModel FMMStruct XGrid FMMAbs Exact Examples
  DaryModel DaryHeap FibModel FibHeap FM2Model Solution FMMX FloatOps
  Prop_FMM Prop_Sweep Prop_Bound Prop_Heap Prop_Clear Prop_Solver Prop_GMM Prop_UFMM Prop_Life Prop_FM2 Prop_FM2Obj Prop_Float.
Open Scope Z_scope.

Lemma loop_visited {N : Num} (HO : HeapOps N) cfg goal init g : forall fuel st log st' log',
  visited HO cfg init g st log -> fmm_loop HO fuel cfg goal st log = Ok (st', log') -> visited HO cfg init g st' log'.
Proof.
  induction fuel as [|k IH]; intros st log st' log' V H; [discriminate|]. cbn [fmm_loop] in H.
  apply bind_ok in H. destruct H as [r [Er H]]. destruct r as [[m st1]|]; [|injection H as <- <-; exact V].
  assert (V1 : visited HO cfg init g st1 (m :: log)) by (eapply vis_step; eassumption).
  destruct (m =? goal); [injection H as <- <-; exact V1|]. eapply IH; eassumption.
Qed.
Lemma outcome_visited {N : Num} (HO : HeapOps N) cfg goal init g fuel st log :
  fmm_outcome HO cfg goal init g fuel st log -> visited HO cfg init g st log.
Proof.
  unfold fmm_outcome, fmm_run. intros H. apply bind_ok in H. destruct H as [s0 [E H]]. eapply loop_visited; [|exact H]. apply vis_init. exact E.
Qed.

(** C16, C18, C19, C21 in exact arithmetic: a 3 x 3 map with an obstacle in the middle and
    two opposite corners as initial points; the run exists and is a visited state *)
Example C16_C18_C19_C21_case : exact_problem [3;3] ex_grid [0;8] /\ separated [3;3] ex_grid [0;8] /\ box_size [3;3] < Z.of_nat 10 /\
  exists st log, fmm_outcome (RefHeap (N := XR)) no_heur noGoal [0;8] ex_grid 10 st log /\ visited RefHeap no_heur [0;8] ex_grid st log /\
    (exists t, time_is (fs_g st) 1 (XFin t)).
Proof.
  destruct C15_case as [A [B [F _]]]. split; [exact A|]. split; [exact B|]. split; [cbn; lia|].
  destruct (C15_fmm_terminates_exact RefHeap (RefHeap_laws XR_laws) [3;3] ex_grid [0;8] noGoal 10 A B) as [st [log [H _]]]; [cbn; lia|].
  exists st, log. split; [exact H|]. split; [eapply outcome_visited; exact H|].
  assert (Hi : 0 <= 1 < box_size [3;3]) by (cbn; lia). assert (Hn : box_size [3;3] < Z.of_nat 10) by (cbn; lia).
  apply (proj1 (C17_reaches_exactly_connected RefHeap (RefHeap_laws XR_laws) [3;3] ex_grid [0;8] 10 st log 1 A B Hn H Hi)).
  apply reach_step with (i := 0).
  - apply reach_src. left. reflexivity.
  - assert (Hp : proper [3;3]) by (repeat constructor; lia). apply nbrs_spec; [exact Hp|cbn; lia|]. cbn. tauto.
  - exact F.
Qed.

(** C16, C17, C21 in doubles: 3 x 2 cells, an obstacle next to the initial point *)
Definition cs_grid : grid F64 := vgrid [3;2] (n1 : F64) [z64 1; z64 0; z64 1; z64 1; z64 1; z64 1].
Example C16_C17_C21_doubles_case : shape_ok [3;2] /\ clean_grid [3;2] cs_grid /\ points_ok [3;2] [0] /\ heuristic_ready [3;2] (no_heur (N := F64)) /\
  exists st log, fmm_outcome (DaryHeap (N := F64)) no_heur noGoal [0] cs_grid 20 st log /\ log = [2; 5; 4; 3; 0] /\
    visited DaryHeap no_heur [0] cs_grid st log.
Proof.
  split; [split; [repeat (constructor; [lia|]); constructor|cbn; lia]|]. split; [apply vgrid_clean; reflexivity|].
  split; [split; [repeat constructor; cbn; tauto|intros i [<-|[]]; cbn; lia]|]. split; [left; reflexivity|].
  assert (K : match fmm_run (DaryHeap (N := F64)) 20 no_heur noGoal [0] cs_grid (hempty _) with Ok (_, l) => Some l | _ => None end = Some [2;5;4;3;0]) by (vm_compute; reflexivity).
  destruct (fmm_run (DaryHeap (N := F64)) 20 no_heur noGoal [0] cs_grid (hempty _)) as [[st l]|] eqn:E; [|discriminate K]. injection K as ->.
  exists st, [2;5;4;3;0]. split; [exact E|]. split; [reflexivity|]. eapply outcome_visited. exact E.
Qed.

(** C39: the same map, every solver runs without a goal *)
Example C39_case : box_size [3;2] < 4294967296 /\ grid_ok [3;2] cs_grid /\
  goal_of (setInitialPoints (mkSolver GSet false [] None) [0]) = Ok noGoal /\
  (exists r, fmm_run (RefHeap (N := F64)) 20 no_heur noGoal [0] cs_grid (hempty _) = Ok r) /\
  (exists r, fsm_run 20 4294967295 noGoal [0] 0 [1;1] cs_grid = Ok r) /\
  (exists r, lsm_run 20 4294967295 noGoal [0] 0 [1;1] cs_grid = Ok r) /\
  (exists r, ddqm_run 200 noGoal [0] n1 n1 cs_grid = Ok r) /\
  (exists r, fim_run 200 n0 noGoal [0] cs_grid = Ok r) /\
  (exists r, gmm_run 200 n1 noGoal [0] cs_grid = Ok r) /\
  (exists r, ufmm_run 200 noGoal [0] cs_grid (uq_new 1000 (nofZ 2)) = Ok r).
Proof.
  split; [cbn; lia|]. split; [apply vgrid_clean; reflexivity|]. split; [reflexivity|].
  assert (T : forall A (r : res A), match r with Ok _ => true | _ => false end = true -> exists a, r = Ok a) by (intros A [a|f] H; [eauto|discriminate H]).
  repeat split; apply T; vm_compute; reflexivity.
Qed.

(** C41: a map with two obstacles, one with a single obstacle, one without *)
Definition cs_one : grid F64 := setOccupiedCells cs_grid [1].
Definition cs_two : grid F64 := setOccupiedCells (vgrid [3;2] (n1 : F64) [z64 0; z64 1; z64 1; z64 1; z64 1; z64 0]) [0;5].
Lemma cs_obs (g : grid F64) i : match getCell g i with Ok c => isOccupied c | _ => false end = true -> obstacle g i.
Proof. intros H. destruct (getCell g i) as [c|] eqn:E; [|discriminate H]. exists c. auto. Qed.
Lemma cs_free (g : grid F64) i : match getCell g i with Ok c => negb (isOccupied c) | _ => false end = true -> free g i.
Proof. intros H. destruct (getCell g i) as [c|] eqn:E; [|discriminate H]. exists c. split; [exact E|]. destruct (isOccupied c); [discriminate H|reflexivity]. Qed.
Example C41_case :
  (g_clean cs_one = true /\ g_obs cs_one = [1] /\ obstacle cs_one 1 /\ free cs_one 0 /\ free cs_one 2 /\ s32 0 <> s32 2 /\ u32 2 = 2 /\ s32 2 <> -1) /\
  (g_clean cs_grid = true /\ g_obs cs_grid = [] /\ exists r, solver_setup (mkSolver GSet false [0] (Some (u32 2))) cs_grid = Ok r) /\
  (shape_ok [3;2] /\ g_clean cs_two = true /\ clean_grid [3;2] cs_two /\ points_ok [3;2] (g_obs cs_two) /\ (2 <= length (g_obs cs_two))%nat /\
   (forall i, In i (g_obs cs_two) -> obstacle cs_two i) /\ free cs_two 1).
Proof.
  split; [|split].
  - split; [reflexivity|]. split; [reflexivity|]. split; [apply cs_obs; vm_compute; reflexivity|]. split; [apply cs_free; vm_compute; reflexivity|].
    split; [apply cs_free; vm_compute; reflexivity|]. repeat split; vm_compute; congruence.
  - split; [reflexivity|]. split; [reflexivity|].
    assert (T : forall A (r : res A), match r with Ok _ => true | _ => false end = true -> exists a, r = Ok a) by (intros A [a|f] H; [eauto|discriminate H]).
    apply T. vm_compute. reflexivity.
  - split; [split; [repeat (constructor; [lia|]); constructor|cbn; lia]|]. split; [reflexivity|].
    split; [apply (vgrid_clean [3;2] (n1 : F64) [z64 0; z64 1; z64 1; z64 1; z64 1; z64 0]); reflexivity|].
    split; [split; [repeat constructor; cbn; lia|intros i [<-|[<-|[]]]; cbn; lia]|].
    split; [cbn; lia|]. split; [intros i [<-|[<-|[]]]; apply cs_obs; vm_compute; reflexivity|apply cs_free; vm_compute; reflexivity].
Qed.

(** C56: the map of C15 with its exact solution, and any step, e.g. 1/2 *)
Example C56_case : exact_problem [3;3] ex_grid [0;8] /\
  (exists X, exact_solution [3;3] (fun i => In i [0;8]) (free ex_grid) (slow ex_grid) X /\ X 1 <> None /\ X 4 = None) /\ (0 < 1/2)%R.
Proof. split; [apply C15_case|]. split; [|lra]. destruct C52_case as [X [A [_ [B C]]]]. exists X. auto. Qed.

(** C57: two maps, the second computed without a reset: both runs succeed *)
Example C57_case : exists o g o0 g0 o1 g1, c57_first = Ok (o, g) /\ sv_setup (fo_s o) = true /\
  fmm_setEnvironment RefHeap o (Some c57_grid) = Ok (o0, g0) /\
  fmm_compute RefHeap 50 (fmm_setPoints RefHeap o0 [0] (-1)) g0 = Ok (o1, g1).
Proof.
  assert (K : match c57_first with
    | Ok (o, g) => sv_setup (fo_s o) && match fmm_setEnvironment RefHeap o (Some c57_grid) with
       | Ok (o0, g0) => match fmm_compute RefHeap 50 (fmm_setPoints RefHeap o0 [0] (-1)) g0 with Ok _ => true | _ => false end | _ => false end
    | _ => false end = true) by (vm_compute; reflexivity).
  destruct c57_first as [[o g]|] eqn:E; [|discriminate K]. apply andb_prop in K. destruct K as [K1 K].
  destruct (fmm_setEnvironment RefHeap o (Some c57_grid)) as [[o0 g0]|] eqn:E0; [|discriminate K].
  destruct (fmm_compute RefHeap 50 (fmm_setPoints RefHeap o0 [0] (-1)) g0) as [[o1 g1]|] eqn:E1; [|discriminate K].
  exists o, g, o0, g0, o1, g1. auto.
Qed.

(** C58: FMM* with the time heuristic, first without a goal, then reset and with one *)
Example C58_case : exists o g0 o1 g1 o2 g2 o3 g3,
  fmm_setEnvironment RefHeap (fmm_new RefHeap TIME) (Some c57_grid) = Ok (o, g0) /\
  fmm_compute RefHeap 50 (fmm_setPoints RefHeap o [0] (-1)) g0 = Ok (o1, g1) /\
  fmm_reset RefHeap o1 g1 = Ok (o2, g2) /\ fmm_compute RefHeap 50 (fmm_setPoints RefHeap o2 [0] 5) g2 = Ok (o3, g3).
Proof.
  assert (K : match fmm_setEnvironment RefHeap (fmm_new RefHeap TIME) (Some c57_grid) with
    | Ok (o, g0) => match fmm_compute RefHeap 50 (fmm_setPoints RefHeap o [0] (-1)) g0 with
       | Ok (o1, g1) => match fmm_reset RefHeap o1 g1 with
          | Ok (o2, g2) => match fmm_compute RefHeap 50 (fmm_setPoints RefHeap o2 [0] 5) g2 with Ok _ => true | _ => false end
          | _ => false end | _ => false end | _ => false end = true) by (vm_compute; reflexivity).
  destruct (fmm_setEnvironment RefHeap (fmm_new RefHeap TIME) (Some c57_grid)) as [[o g0]|] eqn:E0; [|discriminate K].
  destruct (fmm_compute RefHeap 50 (fmm_setPoints RefHeap o [0] (-1)) g0) as [[o1 g1]|] eqn:E1; [|discriminate K].
  destruct (fmm_reset RefHeap o1 g1) as [[o2 g2]|] eqn:E2; [|discriminate K].
  destruct (fmm_compute RefHeap 50 (fmm_setPoints RefHeap o2 [0] 5) g2) as [[o3 g3]|] eqn:E3; [|discriminate K].
  exists o, g0, o1, g1, o2, g2, o3, g3. auto.
Qed.

(** C65: two separated initial points, the default band *)
Example C65_case : shape_ok [3;2] /\ clean_grid [3;2] c65_grid /\ points_ok [3;2] [0;2] /\ separated [3;2] c65_grid [0;2] /\ band_ok 1000 (nofZ 2 : F64) /\
  exists s log, ufmm_run 50 noGoal [0; 2] c65_grid (uq_new 1000 (nofZ 2)) = Ok (s, log).
Proof.
  split; [split; [repeat (constructor; [lia|]); constructor|cbn; lia]|]. split; [apply vgrid_clean; reflexivity|].
  split; [split; [repeat constructor; cbn; lia|intros i [<-|[<-|[]]]; cbn; lia]|].
  split.
  { intros i j Hi Hj Ha. exfalso. assert (Hp : proper [3;2]) by (repeat constructor; lia).
    assert (Hin : In j (nbrs [3;2] i)) by (apply nbrs_spec; [exact Hp|apply (adjacent_range _ _ _ Ha)|exact Ha]).
    destruct Hi as [<-|[<-|[]]]; cbn in Hin; destruct Hj as [<-|[<-|[]]]; lia. }
  split; [exact C65_default_band_doubles|]. destruct C65_adjacent_sources_are_undefined as [_ [s [log [H _]]]]. eauto.
Qed.

(** C76, C78: the map of C77; a run with goal 1 stops there *)
Example C76_C78_case : double_problem [3;3] c77_grid [0;8] /\ within_resolution [3;3] c77_grid (1/4) 1 /\ separated [3;3] c77_grid [0;8] /\
  (exists X, exact_for [3;3] c77_grid [0;8] X 9) /\ (err_above ([3;3])%Z (1/4) 1 9 <= 1)%R /\
  exists st log, fmm_outcome (RefHeap (N := F64)) no_heur 1 [0;8] c77_grid 20 st log /\ hd_error log = Some 1 /\ run64 [3;3] c77_grid [0;8] 1 (fs_g st).
Proof.
  destruct C77_case as [A [B [S [[X [E _]] [_ [F _]]]]]]. split; [exact A|]. split; [exact B|]. split; [exact S|]. split; [eauto|].
  split; [eapply Rle_trans; [exact F|]; cbn; lra|].
  assert (K : match fmm_run (RefHeap (N := F64)) 20 no_heur 1 [0;8] c77_grid (hempty _) with Ok (_, l) => hd_error l | _ => None end = Some 1) by (vm_compute; reflexivity).
  destruct (fmm_run (RefHeap (N := F64)) 20 no_heur 1 [0;8] c77_grid (hempty _)) as [[st l]|] eqn:H; [|discriminate K].
  exists st, l. split; [exact H|]. split; [exact K|]. eapply r64_fmm; [apply RefHeap_laws, F64_laws|exact S|exact H].
Qed.

(** Prop_Life.v - property theorems C57, C58 (and C37): what a solver object remembers when it is given
    another map. *)
From Coq Require Import Reals Lra.
From Verif Require Import Base BaseFacts Num NumXR NumF64 NumLaws Grid GridFacts GridUpd Spec Obs Examples Eikonal FMMModel HeapLaws HeapRef
  SweepModel QueueModel UntidyModel Frame SolverModel Lifecycle NoGoal Prop_Heap Prop_Solver Prop_FMM Prop_GMM.
Open Scope Z_scope.

(** ** C57: setEnvironment on a solver that has already computed *)
Section C57.
Context {N : Num}.

(** setup() is skipped: no check rejects the points, and the new grid is still flagged
    clean after the run, so reset() leaves its times and states as they are. *)
Theorem C57_new_map_stays_flagged_clean :
  forall (HO : HeapOps N) (o o0 o1 : fmm_obj HO) (g g0 g1 : grid N) init goal fuel,
  sv_setup (fo_s o) = true ->
  fmm_setEnvironment HO o (Some g) = Ok (o0, g0) ->
  fmm_compute HO fuel (fmm_setPoints HO o0 init goal) g0 = Ok (o1, g1) ->
  g_clean g1 = true /\ exists o2, fmm_reset HO o1 g1 = Ok (o2, g1).
Proof.
  intros HO o o0 o1 g g0 g1 init goal fuel Hs He Hc. injection He as <- <-.
  unfold fmm_compute in Hc. cbn [fmm_setPoints fmm_with_solver fo_s setInitialAndGoalPoints sv_setup] in Hc. rewrite Hs in Hc. cbn [bind] in Hc.
  apply bind_ok in Hc. destruct Hc as [k [_ Hc]]. apply bind_ok in Hc. destruct Hc as [[st log] [Hr Hc]]. injection Hc as <- <-.
  pose proof (fmm_run_frame (fun _ => True) HO _ _ _ _ _ _ _ _ (fun _ _ => Logic.I) Hr) as [_ [_ [_ [F _]]]].
  rewrite clean_flag in F. split; [exact F|].
  unfold fmm_reset, solver_reset. cbn [fo_s fmm_with_solver setInitialAndGoalPoints sv_grid bind]. eexists.
  unfold clean. rewrite F. reflexivity.
Qed.

(** after a successful compute() every solver is in that state *)
Theorem C57_compute_leaves_the_solver_set_up :
  forall (HO : HeapOps N) (o o1 : fmm_obj HO) (g g1 : grid N) fuel, fmm_compute HO fuel o g = Ok (o1, g1) -> sv_setup (fo_s o1) = true.
Proof.
  intros HO o o1 g g1 fuel H. unfold fmm_compute in H. apply bind_ok in H. destruct H as [[oa ga] [Ha H]]. apply bind_ok in H. destruct H as [k [_ H]].
  apply bind_ok in H. destruct H as [[st log] [_ H]]. injection H as <- <-. cbn [fo_s].
  destruct (sv_setup (fo_s o)) eqn:E; [injection Ha as <- <-; exact E|].
  destruct (fmm_setup_cases _ _ _ _ _ Ha) as [s1 [kk [H1 [_ Hcs]]]]. pose proof (solver_setup_ok _ _ _ _ H1) as [Es1 _].
  assert (Eo : fo_s oa = s1) by (destruct Hcs as [[_ ->]|[[_ [_ ->]]|[_ [_ [gc [d [_ [_ ->]]]]]]]]; reflexivity). rewrite Eo, Es1. reflexivity.
Qed.
End C57.

(** A history with doubles: compute on one 3x1.. map, setEnvironment to a second map,
    compute from cell 0, reset, compute from cell 5: cell 0 keeps time 0 and cell 4 its
    distance from cell 0, although the only source is cell 5. *)
Definition c57_grid : grid F64 := vgrid [3;2] (n1 : F64) [z64 1; z64 1; z64 1; z64 1; z64 1; z64 1].
Definition c57_first : res (fmm_obj (RefHeap (N := F64)) * grid F64) :=
  '(o, h) <- fmm_setEnvironment RefHeap (fmm_new RefHeap NOHEUR) (Some c57_grid) ;; fmm_compute RefHeap 50 (fmm_setPoints RefHeap o [0] (-1)) h.
Definition c57_history : res (grid F64) :=
  '(o, _) <- c57_first ;;
  '(o, h) <- fmm_setEnvironment RefHeap o (Some c57_grid) ;;
  '(o, h) <- fmm_compute RefHeap 50 (fmm_setPoints RefHeap o [0] (-1)) h ;;
  '(o, h) <- fmm_reset RefHeap o h ;;
  '(o, h) <- fmm_compute RefHeap 50 (fmm_setPoints RefHeap o [5] (-1)) h ;;
  Ok h.
Theorem C57_reset_does_not_help :
  exists g, c57_history = Ok g /\ (exists t, time_is g 0 t /\ neqb t n0 = true) /\ (exists t, time_is g 2 t /\ neqb t (nofZ 2) = true).
Proof.
  assert (K : match c57_history with Ok g => match getArrivalTime g 0, getArrivalTime g 2 with
     Ok a, Ok b => neqb a n0 && neqb b (nofZ 2) | _, _ => false end | _ => false end = true) by (vm_compute; reflexivity).
  destruct c57_history as [g|]; [|discriminate K]. exists g. split; [reflexivity|].
  destruct (getArrivalTime g 0) as [a|] eqn:E0; [|discriminate K]. destruct (getArrivalTime g 2) as [b|] eqn:E2; [|discriminate K].
  apply andb_true_iff in K. destruct K as [K1 K2]. split; [exists a|exists b]; split; auto.
Qed.

(** and a single occupied source, rejected by a new solver, is accepted *)
Definition c57_wall : grid F64 := vgrid [3;2] (n1 : F64) [z64 0; z64 1; z64 1; z64 1; z64 1; z64 1].
Theorem C57_checks_are_skipped :
  (exists o h, fmm_setEnvironment RefHeap (fmm_new RefHeap NOHEUR) (Some c57_wall) = Ok (o, h) /\
     fmm_compute RefHeap 50 (fmm_setPoints RefHeap o [0] (-1)) h = Fail (Exit 1)) /\
  (exists o h o1 h1 r, c57_first = Ok (o, h) /\ fmm_setEnvironment RefHeap o (Some c57_wall) = Ok (o1, h1) /\
     fmm_compute RefHeap 50 (fmm_setPoints RefHeap o1 [0] (-1)) h1 = Ok r).
Proof.
  split.
  - eexists _, _. split; [reflexivity|].
    match goal with |- ?x = _ => assert (K : match x with Fail (Exit 1) => true | _ => false end = true) by (vm_compute; reflexivity); destruct x as [r|[|[|[]|]|]] end;
      try discriminate K; reflexivity.
  - assert (K : match c57_first with Ok (o, h) => match fmm_setEnvironment RefHeap o (Some c57_wall) with Ok (o1, h1) =>
        match fmm_compute RefHeap 50 (fmm_setPoints RefHeap o1 [0] (-1)) h1 with Ok _ => true | _ => false end | _ => false end | _ => false end = true) by (vm_compute; reflexivity).
    destruct c57_first as [[o h]|]; [|discriminate K]. exists o, h.
    destruct (fmm_setEnvironment RefHeap o (Some c57_wall)) as [[o1 h1]|]; [|discriminate K]. exists o1, h1.
    destruct (fmm_compute RefHeap 50 (fmm_setPoints RefHeap o1 [0] (-1)) h1) as [r|]; [|discriminate K]. exists r. auto.
Qed.

(** ** C58: a run without goal switches the heuristic off for good *)
Section C58.
Context {N : Num}.

Theorem C58_heuristic_lost_after_a_run_without_goal :
  forall (HO : HeapOps N) h (g g0 g1 : grid N) o o1 init fuel,
  fmm_setEnvironment HO (fmm_new HO h) (Some g) = Ok (o, g0) ->
  fmm_compute HO fuel (fmm_setPoints HO o init (-1)) g0 = Ok (o1, g1) ->
  fo_strat o1 = NOHEUR /\
  (* and it stays so: whatever is computed afterwards with a goal is a plain FMM run *)
  forall init2 goal2 fuel2 o2 g2 o3 g3, fmm_reset HO o1 g1 = Ok (o2, g2) ->
    fmm_compute HO fuel2 (fmm_setPoints HO o2 init2 goal2) g2 = Ok (o3, g3) ->
    fo_strat o3 = NOHEUR /\ exists st log, fmm_run HO fuel2 no_heur (u32 goal2) init2 (setClean g2 false) (hempty HO) = Ok (st, log) /\ g3 = fs_g st.
Proof.
  intros HO h g g0 g1 o o1 init fuel He Hc. injection He as <- <-. unfold fmm_compute in Hc.
  cbn [fmm_setPoints fmm_with_solver fo_s setInitialAndGoalPoints sv_setup fmm_new new_solver] in Hc. apply bind_ok in Hc. destruct Hc as [[oa ga] [Ha Hc]].
  destruct (fmm_setup_cases _ _ _ _ _ Ha) as [s1 [k [H1 [Hk Hcs]]]]. pose proof (solver_setup_ok _ _ _ _ H1) as [Es1 _].
  assert (Ek : k = u32 (-1)) by (rewrite Es1 in Hk; injection Hk as <-; reflexivity).
  assert (Hoa : fo_strat oa = NOHEUR).
  { destruct Hcs as [[_ ->]|[[_ [_ ->]]|[_ [Hne _]]]]; [reflexivity|reflexivity|]. exfalso. apply Hne. rewrite Ek. reflexivity. }
  apply bind_ok in Hc. destruct Hc as [k1 [_ Hc]]. apply bind_ok in Hc. destruct Hc as [[st log] [Hr Hc]]. injection Hc as <- <-. cbn [fo_strat].
  split; [exact Hoa|]. intros init2 goal2 fuel2 o2 g2 o3 g3 Hre Hc2.
  unfold fmm_reset, solver_reset in Hre. cbn [fo_s] in Hre. destruct (sv_grid (fo_s oa)) eqn:Eg; try discriminate. cbn [bind fo_strat fo_dist fo_pre fo_coord] in Hre. injection Hre as <- <-.
  unfold fmm_compute in Hc2. cbn [fmm_setPoints fmm_with_solver fo_s setInitialAndGoalPoints sv_setup] in Hc2. apply bind_ok in Hc2. destruct Hc2 as [[ob gb] [Hb Hc2]].
  destruct (fmm_setup_cases _ _ _ _ _ Hb) as [s2 [k2 [H2 [Hk2 Hcs2]]]]. pose proof (solver_setup_ok _ _ _ _ H2) as [Es2 [Egb _]].
  cbn [fo_strat fo_band fo_dist fo_pre fo_coord fmm_setPoints fmm_with_solver] in Hcs2. rewrite Hoa in Hcs2.
  destruct Hcs2 as [[_ ->]|[[Hne _]|[Hne _]]]; [|congruence|congruence].
  cbn [fo_s fo_strat fo_dist fo_coord fo_band fo_pre] in Hc2. rewrite Hk2 in Hc2. cbn [bind] in Hc2.
  apply bind_ok in Hc2. destruct Hc2 as [[st2 log2] [Hr2 Hc2]]. injection Hc2 as <- <-. cbn [fo_strat]. split; [reflexivity|].
  exists st2, log2. split; [|reflexivity]. rewrite Es2 in Hr2, Hk2. cbn [sv_init sv_goal goal_of fo_s fmm_setPoints fmm_with_solver setInitialAndGoalPoints] in Hr2, Hk2.
  injection Hk2 as <-. rewrite Egb in Hr2.
  (* the run does not look at the table when there is no strategy *)
  assert (Eq : forall fu cfg go ini gr hh, fc_strat cfg = NOHEUR -> fmm_run HO fu cfg go ini gr hh = fmm_run HO fu no_heur go ini gr hh).
  { clear. intros fu cfg go ini gr hh Hs. assert (E1 : forall st i, fmm_init1 HO cfg st i = fmm_init1 HO no_heur st i) by (intros; unfold fmm_init1, fmm_heur; rewrite Hs; reflexivity).
    assert (E2 : forall st i, fmm_neighbor HO cfg st i = fmm_neighbor HO no_heur st i) by (intros; unfold fmm_neighbor, fmm_heur; rewrite Hs; reflexivity).
    assert (FE : forall A B (f h : A -> B -> res A) l a, (forall a b, f a b = h a b) -> foldM f l a = foldM h l a).
    { intros A B f h l. induction l as [|b l IH]; intros a Hf; cbn; [reflexivity|]. rewrite Hf. destruct (h a b); cbn; auto. }
    unfold fmm_run. rewrite (FE _ _ _ _ ini _ E1). destruct (foldM (fmm_init1 HO no_heur) ini (mkFst gr hh)) as [st|e]; cbn [bind]; [|reflexivity].
    generalize (@nil Z) as log. revert st. induction fu as [|fu IH]; intros st log; cbn [fmm_loop]; [reflexivity|].
    assert (ES : fmm_step HO cfg st = fmm_step HO no_heur st).
    { unfold fmm_step. destruct (hpop HO (key (fs_g st)) (fs_h st)) as [[m h1]|]; [|reflexivity]. destruct (getNeighbors (g_sh (fs_g st)) m); cbn [bind]; [|reflexivity].
      destruct (setState (fs_g st) m FROZEN); cbn [bind]; [|reflexivity]. rewrite (FE _ _ _ _ _ _ E2). reflexivity. }
    rewrite ES. destruct (fmm_step HO no_heur st) as [[[m st1]|]|]; cbn [bind]; try reflexivity. destruct (m =? go); [reflexivity|]. apply IH. }
  rewrite Eq in Hr2 by reflexivity. exact Hr2.
Qed.
End C58.

(** ** C37 again: the default step of GMM comes from the first map only *)
Theorem C37_object_keeps_the_first_default_step :
  forall (g g0 g1 : grid XR) o o1 init goal fuel m,
  getMaxSpeed g0 = XFin m -> (0 < m)%R ->
  gmm_setEnvironment (gmm_new (XFin (-1) : XR)) (Some g) = Ok (o, g0) ->
  gmm_compute fuel (gmm_setPoints o init goal) g0 = Ok (o1, g1) ->
  go_dt o1 = XFin (1 / m) /\
  forall (g2 g3 g4 : grid XR) o2 o3 o4 init2 goal2 fuel2,
  (* a reset and another map, however fast or slow *)
  gmm_reset o1 g1 = Ok (o2, g2) -> gmm_setEnvironment o2 (Some g3) = Ok (o3, g4) ->
  forall g5, gmm_compute fuel2 (gmm_setPoints o3 init2 goal2) g4 = Ok (o4, g5) -> go_dt o4 = XFin (1 / m).
Proof.
  intros g g0 g1 o o1 init goal fuel m Hm Hpos He Hc.
  assert (D : gmm_setup_dt (XFin (-1) : XR) (setClean g0 false) = XFin (1 / m)).
  { unfold gmm_setup_dt. change (getMaxSpeed (setClean g0 false)) with (getMaxSpeed g0). rewrite Hm. cbn. unfold Rltb, Reqb.
    destruct (Rlt_dec (-1) 0); [|lra]. destruct (Req_EM_T m 0); [lra|]. reflexivity. }
  assert (D2 : forall g : grid XR, gmm_setup_dt (XFin (1 / m) : XR) g = XFin (1 / m)).
  { intros g'. unfold gmm_setup_dt. cbn. unfold Rltb. destruct (Rlt_dec (1 / m) 0) as [H|]; [|reflexivity].
    exfalso. assert (0 < / m)%R by (apply Rinv_0_lt_compat; exact Hpos). lra. }
  assert (E1 : go_dt o1 = XFin (1 / m) /\ sv_grid (go_s o1) = GSet).
  { assert (Eo : go_s o = mkSolver GSet false [] None /\ go_dt o = (XFin (-1) : XR)) by (inversion He; auto). destruct Eo as [Es Ed].
    unfold gmm_compute, gmm_setPoints in Hc. cbn [go_s go_dt setInitialAndGoalPoints sv_setup] in Hc. rewrite Es in Hc. cbn [sv_setup] in Hc.
    unfold gmm_setup in Hc. cbn [go_s go_dt go_gamma] in Hc. apply bind_ok in Hc. destruct Hc as [[oa ga] [Ha Hc]].
    apply bind_ok in Ha. destruct Ha as [[s1 gb] [H1 Ha]]. pose proof (solver_setup_ok _ _ _ _ H1) as [Es1 [Eg1 _]].
    assert (Ea : oa = mkGmmObj s1 (gmm_setup_dt (go_dt o) gb) (go_gamma o)) by congruence.
    apply bind_ok in Hc. destruct Hc as [k [_ Hc]].
    assert (Eo1 : go_dt o1 = go_dt oa /\ go_s o1 = go_s oa).
    { apply bind_ok in Hc. destruct Hc as [r [_ Hc]]. inversion Hc; auto. }
    destruct Eo1 as [-> ->]. rewrite Ea. cbn [go_dt go_s]. rewrite Ed, Eg1, D, Es1. auto. }
  destruct E1 as [E1 E2]. split; [exact E1|].
  intros g2 g3 g4 o2 o3 o4 init2 goal2 fuel2 Hr He2 g5 Hc2.
  assert (Eo2 : go_dt o2 = go_dt o1 /\ sv_setup (go_s o2) = false).
  { unfold gmm_reset, solver_reset in Hr. rewrite E2 in Hr. inversion Hr; auto. } destruct Eo2 as [Eo2 Eo2'].
  assert (Eo3 : go_dt o3 = go_dt o2 /\ sv_setup (go_s o3) = sv_setup (go_s o2)) by (inversion He2; auto). destruct Eo3 as [Eo3 Eo3'].
  unfold gmm_compute, gmm_setPoints in Hc2. cbn [go_s go_dt setInitialAndGoalPoints sv_setup] in Hc2. rewrite Eo3', Eo2' in Hc2.
  unfold gmm_setup in Hc2. cbn [go_s go_dt go_gamma] in Hc2. apply bind_ok in Hc2. destruct Hc2 as [[oa ga] [Ha Hc2]].
  apply bind_ok in Ha. destruct Ha as [[s1 gb] [H1 Ha]].
  assert (Ea : oa = mkGmmObj s1 (gmm_setup_dt (go_dt o3) gb) (go_gamma o3)) by congruence.
  apply bind_ok in Hc2. destruct Hc2 as [k [_ Hc2]].
  assert (Eo1 : go_dt o4 = go_dt oa).
  { apply bind_ok in Hc2. destruct Hc2 as [r [_ Hc2]]. inversion Hc2; auto. }
  rewrite Eo1, Ea. cbn [go_dt]. rewrite Eo3, Eo2, E1. apply D2.
Qed.

Print Assumptions C57_new_map_stays_flagged_clean. Print Assumptions C57_compute_leaves_the_solver_set_up. Print Assumptions C57_reset_does_not_help.
Print Assumptions C57_checks_are_skipped. Print Assumptions C58_heuristic_lost_after_a_run_without_goal. Print Assumptions C37_object_keeps_the_first_default_step.

(** the hypotheses are met (the 3x3 map with an obstacle, sources 0 and 8) *)
Example C37_object_case : exists fuel r, gmm_compute fuel (gmm_setPoints (mkGmmObj (mkSolver GSet false [] None) (XFin (-1) : XR) []) [0;8] (-1)) ex_grid = Ok r.
Proof.
  destruct C15_case as [HP _].
  assert (HP' : exact_problem [3;3] (setClean ex_grid false) [0;8]) by (exact HP).
  assert (Hm : exists dt, (0 < dt)%R /\ gmm_setup_dt (XFin (-1) : XR) (setClean ex_grid false) = XFin dt).
  { exists 1%R. split; [lra|]. unfold gmm_setup_dt. assert (E : getMaxSpeed (setClean ex_grid false) = XFin 1).
    { assert (G : forall g : grid XR, getMaxSpeed g = fold_left (fun m v => if nltb m v then v else m) (map c_occ (g_cells g)) n0).
      { intros g. unfold getMaxSpeed. generalize (n0 : XR) as m. induction (g_cells g) as [|c l IH]; intros m; cbn [fold_left map]; auto. }
      rewrite G. change (map c_occ (g_cells (setClean ex_grid false))) with ([XFin 1; XFin 1; XFin 1; XFin 1; XFin 0; XFin 1; XFin 1; XFin 1; XFin 1] : list XR).
      assert (H01 : nltb (n0 : XR) (XFin 1) = true) by (unfold nltb; cbn; unfold Rltb; destruct (Rlt_dec 0 1); [reflexivity|lra]).
      assert (H11 : nltb (XFin 1 : XR) (XFin 1) = false) by (unfold nltb; cbn; unfold Rltb; destruct (Rlt_dec 1 1); [lra|reflexivity]).
      assert (H10 : nltb (XFin 1 : XR) (XFin 0) = false) by (unfold nltb; cbn; unfold Rltb; destruct (Rlt_dec 1 0); [lra|reflexivity]).
      cbn [fold_left]. repeat (rewrite ?H01, ?H11, ?H10; cbn [fold_left]). reflexivity. }
    rewrite E. cbn. unfold Rltb, Reqb. destruct (Rlt_dec (-1) 0); [|lra]. destruct (Req_EM_T 1 0); [lra|]. f_equal. lra. }
  destruct Hm as [dt [Hdt Em]].
  destruct (C56_gmm_terminates_with_a_goal [3;3] _ [0;8] (u32 (-1)) dt HP' Hdt) as [fuel [s' [Hr _]]]. exists fuel.
  unfold gmm_compute, gmm_setPoints. cbn [go_s sv_setup setInitialAndGoalPoints go_dt go_gamma sv_grid]. unfold gmm_setup. cbn [go_s go_dt go_gamma].
  assert (Es : solver_setup (mkSolver GSet false [0;8] (Some (u32 (-1)))) ex_grid = Ok (mkSolver GSet true [0;8] (Some (u32 (-1))), setClean ex_grid false)).
  { destruct (proj1 (C38_not_checked [3;3] ex_grid (mkSolver GSet false [] None) 0 8 [] ltac:(repeat (constructor; [lia|]); constructor) ltac:(cbn; lia) ex_grid_ok eq_refl
       ltac:(unfold ex_grid; reflexivity) ltac:(intros k [<-|[<-|[]]]; lia))) as [s'' E].
    destruct (solver_setup_ok _ _ _ _ E) as [E1 _]. unfold setInitialPoints, setInitialAndGoalPoints in E, E1. cbn [sv_grid sv_setup sv_init sv_goal] in E, E1. rewrite E1 in E. exact E. }
  change (setInitialAndGoalPoints (mkSolver GSet false [] None) [0; 8] (-1)) with (mkSolver GSet false [0;8] (Some (u32 (-1)))). rewrite Es. cbn [bind go_s go_dt go_gamma goal_of sv_goal sv_init]. rewrite Em. change (gmm_resume fuel (XFin dt : XR) (u32 (-1)) [0; 8] [] (setClean ex_grid false)) with (gmm_run fuel (XFin dt : XR) (u32 (-1)) [0; 8] (setClean ex_grid false)). rewrite Hr. cbn [bind]. eexists. reflexivity.
Qed.

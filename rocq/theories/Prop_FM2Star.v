(** Prop_FM2Star.v - property theorems C79 and C80: FMM with a heuristic in exact arithmetic, and FM2*. *)
From Coq Require Import Reals Lra.
From Verif Require Import Base BaseFacts Num NumXR NumF64 NumLaws Grid GridFacts GridUpd GridMore XGrid Spec DescentSpec Obs Examples Eikonal FMMModel HeapLaws HeapRef
  Frame Solution FMMStruct FMMReach FMMAbs FMMX Exact Evolve Bound SolverModel Lifecycle Prop_FMM Prop_Star Prop_Clear Prop_Bound Prop_Solver Prop_Heap FM2Model FM2Facts Prop_FM2 Prop_FM2Obj StarX.
Open Scope Z_scope.

(** ** C79: FMM* in exact arithmetic *)
Lemma finite_time (g : grid XR) i c : getCell g i = Ok c -> (fin c <-> exists t, time_is g i (XFin t)).
Proof.
  intros Hc. unfold fin, time_is, getArrivalTime. rewrite Hc. cbn [bind]. split; intros [r E]; exists r; congruence.
Qed.

Section C79.
Context (HO : HeapOps XR) (HL : HeapLaws HO).

(** Whatever the strategy and the heuristic values, a complete run gives a finite time to
    exactly the cells connected to an initial point. *)
Theorem C79_any_heuristic_reaches_the_connected_cells :
  forall dims (g : grid XR) init cfg fuel st log i,
  exact_problem dims g init -> heuristic_ready dims cfg -> (forall i, In i init -> obstacle g i) \/ (exists s, init = [s]) ->
  fmm_outcome HO cfg noGoal init g fuel st log -> 0 <= i < box_size dims ->
  ((exists t, time_is (fs_g st) i (XFin t)) <-> reachable dims (fun k => In k init) (free g) i) /\
  (~ (exists t, time_is (fs_g st) i (XFin t)) -> time_is (fs_g st) i XPInf).
Proof.
  intros dims g init cfg fuel st log i [Hsh [[Hg Hc] [Hre [Hnd Hr]]]] Hh Hq Hrun Hi. pose proof Hsh as [H2 Hlt].
  destruct (C17_freezes_exactly_connected_any_arithmetic XR XR_laws HO HL dims g init cfg fuel st log Hsh (conj Hg Hc) (conj Hnd Hr) Hh Hq Hrun i Hi) as [c [Hci [K1 K2]]].
  assert (Hq' : (forall i, In i init -> ~ free g i) \/ (exists s, init = [s])).
  { destruct Hq as [Hq|Hq]; [left|right; exact Hq]. intros k Hk [c0 [E1 E2]]. destruct (Hq k Hk) as [c1 [E3 E4]]. congruence. }
  pose proof (run_FI HO HL dims H2 Hlt cfg init Hh noGoal fuel g st log Hg Hre (fun i c K => conj (proj1 (Hc i c K)) (proj1 (proj2 (Hc i c K)))) Hnd Hr Hq' Hrun) as [[_ [Tok _]] D].
  destruct (D i c Hci) as [D1 D2]. rewrite <- (finite_time _ _ _ Hci). split.
  - split.
    + intros [r Er]. destruct (Tok i c Hci) as [E|_]; [congruence|].
      assert (HT : times (fs_g st) i = Some r) by (unfold times, getArrivalTime; rewrite Hci; cbn [bind]; rewrite Er; reflexivity).
      destruct (C54_reached_cells_are_connected_to_a_source XR XR_laws dims g init (fs_g st) i c Hsh (conj Hg Hc)) as [E|E]; [|exact Hci| |exact E].
      * eapply sr_fmm; exact Hrun.
      * change (c_val c = XPInf) in E. congruence.
    + intros H. apply D2. left. rewrite (K1 H). discriminate.
  - intros Hn. destruct (Tok i c Hci) as [E|[r [E _]]]; [|exfalso; apply Hn; exists r; exact E].
    unfold time_is, getArrivalTime. rewrite Hci. cbn [bind]. rewrite E. reflexivity.
Qed.
Print Assumptions C79_any_heuristic_reaches_the_connected_cells.

(** A run towards a goal: the goal gets a finite time exactly when it is connected, and that
    time is never below the exact solution. *)
Theorem C79_goal_time_with_any_heuristic :
  forall dims (g : grid XR) init cfg goal fuel st log X,
  exact_problem dims g init -> heuristic_ready dims cfg -> (forall i, In i init -> obstacle g i) \/ (exists s, init = [s]) ->
  exact_solution dims (fun i => In i init) (free g) (slow g) X ->
  fmm_outcome HO cfg goal init g fuel st log -> 0 <= goal < box_size dims ->
  (reachable dims (fun k => In k init) (free g) goal -> exists t x, time_is (fs_g st) goal (XFin t) /\ X goal = Some x /\ (x <= t)%R) /\
  (~ reachable dims (fun k => In k init) (free g) goal -> time_is (fs_g st) goal XPInf).
Proof.
  intros dims g init cfg goal fuel st log X HP Hh Hq HX Hrun Hi. pose proof HP as [Hsh [[Hg Hc] [Hre [Hnd Hr]]]]. pose proof Hsh as [H2 Hlt].
  destruct (C17_goal_frozen_iff_connected_any_arithmetic XR XR_laws HO HL dims g init cfg goal fuel st log Hsh (conj Hg Hc) (conj Hnd Hr) Hh Hq Hrun Hi) as [c [Hci K]].
  assert (Hq' : (forall i, In i init -> ~ free g i) \/ (exists s, init = [s])).
  { destruct Hq as [Hq|Hq]; [left|right; exact Hq]. intros k Hk [c0 [E1 E2]]. destruct (Hq k Hk) as [c1 [E3 E4]]. congruence. }
  pose proof (run_FI HO HL dims H2 Hlt cfg init Hh goal fuel g st log Hg Hre (fun i c K => conj (proj1 (Hc i c K)) (proj1 (proj2 (Hc i c K)))) Hnd Hr Hq' Hrun) as [[_ [Tok _]] D].
  destruct (D goal c Hci) as [D1 D2]. split.
  - intros H. destruct D2 as [r Er]; [left; rewrite (proj2 K H); discriminate|].
    assert (HT : times (fs_g st) goal = Some r) by (unfold times, getArrivalTime; rewrite Hci; cbn [bind]; rewrite Er; reflexivity).
    destruct (C53_no_solver_is_below_the_exact_solution dims g init X (fs_g st) goal r HP HX (sr_fmm _ _ _ _ _ _ _ _ _ Hrun) HT) as [x [E1 E2]].
    exists r, x. split; [|auto]. unfold time_is, getArrivalTime. rewrite Hci. cbn [bind]. rewrite Er. reflexivity.
  - intros Hn. destruct (C54_reached_cells_are_connected_to_a_source XR XR_laws dims g init (fs_g st) goal c Hsh (conj Hg Hc)) as [E|E]; [|exact Hci| |contradiction].
    + eapply sr_fmm; exact Hrun.
    + unfold time_is, getArrivalTime. rewrite Hci. cbn [bind]. rewrite E. reflexivity.
Qed.
End C79.

(** The time is not that of plain FMM: on an empty 3x3 map of unit cells and velocities, from
    one corner to the opposite one, FMM* with either strategy returns a later time than FMM. *)
Theorem C79_heuristic_changes_the_goal_time :
  forall strat, strat = TIME \/ strat = DISTANCE ->
  exists dist, precomputeDistances (N := F64) (mk_shape [3;3]) = Ok dist /\ heuristic_ready [3;3] (mkCfg strat dist [2;2]) /\
  exists st log st' log' t t', fmm_outcome (RefHeap (N := F64)) no_heur 8 [0] (new_grid [3;3] n1) 40 st log /\ time_is (fs_g st) 8 t /\
    fmm_outcome (RefHeap (N := F64)) (mkCfg strat dist [2;2]) 8 [0] (new_grid [3;3] n1) 40 st' log' /\ time_is (fs_g st') 8 t' /\ nltb t t' = true.
Proof.
  intros strat Hst. destruct (C24_lookups_succeed F64 [3;3] [2;2] strat) as [d [E H]].
  { cbn; lia. } { repeat (constructor; [lia|]); constructor. } { cbn; lia. } { repeat (constructor; [lia|]); constructor. } { repeat (constructor; [lia|]); constructor. }
  exists d. split; [exact E|]. split; [exact H|].
  assert (K : match precomputeDistances (N := F64) (mk_shape [3;3]) with Ok d =>
                match fmm_run (RefHeap (N := F64)) 40 no_heur 8 [0] (new_grid [3;3] n1) (hempty _), fmm_run (RefHeap (N := F64)) 40 (mkCfg strat d [2;2]) 8 [0] (new_grid [3;3] n1) (hempty _) with
                | Ok (st, _), Ok (st', _) => match getArrivalTime (fs_g st) 8, getArrivalTime (fs_g st') 8 with Ok t, Ok t' => nltb t t' | _, _ => false end
                | _, _ => false end
              | _ => false end = true) by (destruct Hst as [-> | ->]; vm_compute; reflexivity).
  rewrite E in K. unfold fmm_outcome, time_is.
  destruct (fmm_run (RefHeap (N := F64)) 40 no_heur 8 [0] (new_grid [3;3] n1) (hempty _)) as [[st log]|]; [|discriminate].
  destruct (fmm_run (RefHeap (N := F64)) 40 (mkCfg strat d [2;2]) 8 [0] (new_grid [3;3] n1) (hempty _)) as [[st' log']|]; [|discriminate].
  destruct (getArrivalTime (fs_g st) 8) as [t|] eqn:E1; [|discriminate]. destruct (getArrivalTime (fs_g st') 8) as [t'|] eqn:E2; [|discriminate].
  exists st, log, st', log', t, t'. auto 10.
Qed.
Print Assumptions C79_heuristic_changes_the_goal_time.

(** ** C80: FM2* *)
Section Star.
Context {N : Num} (HO : HeapOps N).

(** the object a user gets from the constructor, setEnvironment and FM2*'s own
    setInitialAndGoalPoints *)
Definition star_ready (h : HeurStrategy) (md : N) (g : grid N) (init : list Z) (goal : Z) : res (fm2_obj HO * grid N) :=
  '(o, g0) <- fm2_setEnvironment HO (fm2star_new HO h md) (Some g) ;; o1 <- fm2star_setPoints HO o g0 init goal ;; Ok (o1, g0).

Lemma star_ready_eq h md (g : grid N) init goal dist :
  g_clean g = true -> precomputeDistances (g_sh g) = Ok dist ->
  star_ready h md g init goal = Ok (mkFm2 (mkSolver GSet false init (Some (u32 goal))) (g_obs g)
     (mkFmm (mkSolver GSet false [] None) (hempty HO) NOHEUR dist true []) md h, g).
Proof.
  intros Hc Hd. assert (Ec : clean g = g) by (unfold clean; rewrite Hc; reflexivity).
  unfold star_ready, fm2_setEnvironment, fm2star_setPoints, fmm_precompute. cbn [fm2star_new f2_s new_solver setEnvironment sv_grid].
  cbn. rewrite Ec, Ec, Hd. reflexivity.
Qed.

(** setInitialAndGoalPoints dereferences the grid of the inner solver: calling it before
    setEnvironment is undefined behaviour (plain FM2 and every other solver accept it) *)
Theorem C80_points_need_the_environment :
  forall h md (g : grid N) init goal, fm2star_setPoints HO (fm2star_new HO h md) g init goal = Fail UB /\
    exists o, fm2_setPoints HO (fm2_new HO md) init goal = o /\ sv_init (f2_s o) = init /\ sv_goal (f2_s o) = Some (u32 goal).
Proof. intros. split; [reflexivity|]. eexists. split; [reflexivity|]. split; reflexivity. Qed.

(** Without a goal FM2* exits (plain FM2 has undefined behaviour, C41), with one its setup
    decides as FM2's. *)
Theorem C80_setup_adds_the_goal_check :
  forall (o : fm2_obj HO) (g : grid N),
  match fm2_setup HO o g with
  | Ok (o1, g1) => fm2star_setup HO o g = match goal_of (f2_s o) with
                                          | Ok k => if s32 k =? -1 then Fail (Exit 1) else Ok (o1, g1)
                                          | Fail e => Fail e end
  | Fail e => fm2star_setup HO o g = Fail e
  end.
Proof.
  intros o g. unfold fm2star_setup. destruct (fm2_setup HO o g) as [[o1 g1]|e] eqn:E; cbn [bind]; [|reflexivity].
  assert (Eg : goal_of (f2_s o1) = goal_of (f2_s o)).
  { unfold fm2_setup in E. apply bind_ok in E. destruct E as [[s1 g2] [E1 E2]]. destruct (solver_setup_ok _ _ _ _ E1) as [-> _].
    destruct (1 <? Z.of_nat (length (sv_init (mkSolver (sv_grid (f2_s o)) true (sv_init (f2_s o)) (sv_goal (f2_s o)))))); [discriminate|].
    destruct (f2_sources o); [discriminate|]. injection E2 as <- <-. reflexivity. }
  rewrite Eg. destruct (goal_of (f2_s o)); reflexivity.
Qed.

Theorem C80_no_goal_exits :
  forall h md (g : grid N) init fuel (dist : list N), g_clean g = true -> precomputeDistances (g_sh g) = Ok dist ->
  exists o, star_ready h md g init (-1) = Ok (o, g) /\
    (forall o1 g1, fm2_setup HO o g = Ok (o1, g1) -> fm2star_setup HO o g = Fail (Exit 1) /\ fm2star_compute HO fuel o g = Fail (Exit 1)).
Proof.
  intros h md g init fuel dist Hcl Hd. eexists. split; [apply (star_ready_eq _ _ _ _ _ dist Hcl Hd)|]. intros o1 g1 H.
  match type of H with fm2_setup HO ?oo g = _ => pose proof (C80_setup_adds_the_goal_check oo g) as K end. rewrite H in K.
  cbn [f2_s goal_of sv_goal bind] in K. change (s32 (u32 (-1)) =? -1) with true in K. cbn iota in K.
  split; [exact K|]. unfold fm2star_compute, fm2_internal. cbn [f2_s sv_setup]. rewrite K. reflexivity.
Qed.

(** inner solvers without a strategy behave alike, whatever distance table they hold *)
Definition same_inner (a b : fmm_obj HO) : Prop := fo_s a = fo_s b /\ fo_band a = fo_band b /\ fo_strat a = NOHEUR /\ fo_strat b = NOHEUR.
Lemma inner_compute fuel (a b : fmm_obj HO) (g : grid N) : same_inner a b ->
  match fmm_compute HO fuel a g with
  | Ok (a', g') => exists b', fmm_compute HO fuel b g = Ok (b', g') /\ same_inner a' b'
  | Fail e => fmm_compute HO fuel b g = Fail e
  end.
Proof.
  destruct a as [sa ba ta da pa ca], b as [sb bb tb db pb cb]. intros [E1 [E2 [E3 E4]]]. cbn in E1, E2, E3, E4. subst sb bb ta tb.
  unfold fmm_compute. cbn [fo_s].
  assert (K : forall s2 (g2 : grid N), match ('(o1, g1) <- Ok (mkFmm s2 ba NOHEUR da pa ca, g2) ;; k <- goal_of (fo_s o1) ;;
      '(st, _) <- fmm_run HO fuel (mkCfg (fo_strat o1) (fo_dist o1) (fo_coord o1)) k (sv_init (fo_s o1)) g1 (fo_band o1) ;;
      Ok (mkFmm (fo_s o1) (fs_h st) (fo_strat o1) (fo_dist o1) (fo_pre o1) (fo_coord o1), fs_g st)) with
    | Ok (a', g') => exists b', ('(o1, g1) <- Ok (mkFmm s2 ba NOHEUR db pb cb, g2) ;; k <- goal_of (fo_s o1) ;;
      '(st, _) <- fmm_run HO fuel (mkCfg (fo_strat o1) (fo_dist o1) (fo_coord o1)) k (sv_init (fo_s o1)) g1 (fo_band o1) ;;
      Ok (mkFmm (fo_s o1) (fs_h st) (fo_strat o1) (fo_dist o1) (fo_pre o1) (fo_coord o1), fs_g st)) = Ok (b', g') /\ same_inner a' b'
    | Fail e => ('(o1, g1) <- Ok (mkFmm s2 ba NOHEUR db pb cb, g2) ;; k <- goal_of (fo_s o1) ;;
      '(st, _) <- fmm_run HO fuel (mkCfg (fo_strat o1) (fo_dist o1) (fo_coord o1)) k (sv_init (fo_s o1)) g1 (fo_band o1) ;;
      Ok (mkFmm (fo_s o1) (fs_h st) (fo_strat o1) (fo_dist o1) (fo_pre o1) (fo_coord o1), fs_g st)) = Fail e end).
  { intros s2 g2. cbn [bind fo_s fo_band fo_strat fo_dist fo_pre fo_coord]. destruct (goal_of s2) as [k|]; cbn [bind]; [|reflexivity].
    rewrite !(fmm_run_noheur HO (mkCfg NOHEUR _ _)) by reflexivity.
    destruct (fmm_run HO fuel no_heur k (sv_init s2) g2 ba) as [[st l]|]; cbn [bind]; [|reflexivity]. eexists. split; [reflexivity|]. repeat split. }
  destruct (sv_setup sa); [apply K|]. unfold fmm_setup. cbn [fo_s fo_strat fmm_with_solver fo_band fo_dist fo_pre fo_coord fmm_setHeuristics].
  destruct (solver_setup sa g) as [[s2 g2]|]; cbn [bind]; [|reflexivity]. destruct (goal_of s2) as [k|] eqn:Ek; cbn [bind]; [|reflexivity].
  cbn [fo_strat]. apply K.
Qed.

(** With the NOHEUR strategy FM2* is FM2: same exits, same undefined behaviour, same map
    afterwards, for every arithmetic. *)
Theorem C80_noheur_is_fm2 :
  forall md (g : grid N) init goal fuel (dist : list N), g_clean g = true -> precomputeDistances (g_sh g) = Ok dist -> s32 (u32 goal) <> -1 ->
  exists o os, fm2_ready HO md g init goal = Ok (o, g) /\ star_ready NOHEUR md g init goal = Ok (os, g) /\
    match fm2_compute HO fuel o g with
    | Ok (_, g') => exists o', fm2star_compute HO fuel os g = Ok (o', g')
    | Fail e => fm2star_compute HO fuel os g = Fail e
    end.
Proof.
  intros md g init goal fuel dist Hcl Hd Hk. eexists _, _. split; [apply fm2_ready_eq; exact Hcl|]. split; [apply (star_ready_eq _ _ _ _ _ dist Hcl Hd)|].
  unfold fm2_compute, fm2star_compute, fm2_internal. cbn [f2_s sv_setup].
  set (i1 := mkFmm (mkSolver GSet false [] None) (hempty HO) NOHEUR [] false []).
  set (i2 := mkFmm (mkSolver GSet false [] None) (hempty HO) NOHEUR dist true []).
  set (s0 := mkSolver GSet false init (Some (u32 goal))).
  assert (ES : match fm2_setup HO (mkFm2 s0 (g_obs g) i1 md NOHEUR) g with
    | Ok (o1, g1) => exists s1, o1 = mkFm2 s1 (g_obs g) i1 md NOHEUR /\ fm2star_setup HO (mkFm2 s0 (g_obs g) i2 md NOHEUR) g = Ok (mkFm2 s1 (g_obs g) i2 md NOHEUR, g1) 
    | Fail e => fm2star_setup HO (mkFm2 s0 (g_obs g) i2 md NOHEUR) g = Fail e end).
  { pose proof (C80_setup_adds_the_goal_check (mkFm2 s0 (g_obs g) i2 md NOHEUR) g) as K. unfold fm2_setup in *. cbn [f2_s f2_sources f2_inner f2_maxDist f2_heur] in *.
    destruct (solver_setup s0 g) as [[s1 g1]|]; cbn [bind] in *; [|exact K].
    destruct (1 <? Z.of_nat (length (sv_init s1))); [exact K|]. destruct (g_obs g) as [|k0 kr]; [exact K|]. eexists. split; [reflexivity|]. rewrite K.
    cbn [goal_of sv_goal s0]. destruct (Z.eqb_spec (s32 (u32 goal)) (-1)); [contradiction|]. reflexivity. }
  destruct (fm2_setup HO (mkFm2 s0 (g_obs g) i1 md NOHEUR) g) as [[o1 g1]|e]; [|rewrite ES; reflexivity].
  destruct ES as [s1 [-> ES]]. rewrite ES. cbn [bind].
  unfold fm2_velocities. cbn [f2_s f2_sources f2_inner f2_maxDist f2_heur].
  pose proof (inner_compute fuel (fmm_setPoints HO i1 (g_obs g) (-1)) (fmm_setPoints HO i2 (g_obs g) (-1)) (setClean g1 true)) as K1.
  destruct (fmm_compute HO fuel (fmm_setPoints HO i1 (g_obs g) (-1)) (setClean g1 true)) as [[a' ga]|e]; cbn [bind].
  2:{ rewrite K1; [reflexivity|repeat split]. }
  destruct K1 as [b' [-> [J1 [J2 [J3 J4]]]]]; [repeat split|]. cbn [bind f2_s f2_inner f2_heur].
  match goal with |- context[fmm_compute HO fuel (fmm_setPoints HO a' _ _) ?gg] => set (gv := gg) end.
  destruct (goal_of s1) as [k|]; cbn [bind]; [|reflexivity]. destruct (vget (sv_init s1) 0) as [i|]; cbn [bind]; [|reflexivity].
  cbn [fmm_setHeuristics bind].
  pose proof (inner_compute fuel (fmm_setPoints HO a' [k] i) (fmm_setPoints HO b' [k] i) gv) as K2.
  assert (HS : same_inner (fmm_setPoints HO a' [k] i) (fmm_setPoints HO b' [k] i)).
  { unfold same_inner, fmm_setPoints, fmm_with_solver. cbn. rewrite J1, J2. auto. }
  specialize (K2 HS). destruct (fmm_compute HO fuel (fmm_setPoints HO a' [k] i) gv) as [[a2 g2]|e]; cbn [bind]; [|rewrite K2; reflexivity].
  destruct K2 as [b2 [-> _]]. eexists. reflexivity.
Qed.
End Star.

Section StarExact.
Context (HO : HeapOps XR) (HL : HeapLaws HO).

(** FM2* with any strategy, from new objects: the velocity map is FM2's; the second wave runs
    from the goal towards the start with the strategy's heuristic (distance to the start); the
    start gets a finite time exactly when it is connected to the goal, and no time is below
    the exact solution from the goal over the velocity map. *)
Theorem C80_star_computes :
  forall dims (g : grid XR) s goal md h fuel scs,
  fm2_map dims g -> (2 <= length dims)%nat -> Forall (fun k => k <= 65536) dims -> free g s -> free g goal -> s <> goal -> md <> 0%R -> box_size dims < Z.of_nat fuel ->
  in_box dims scs -> cell_number dims scs = s ->
  exists o o' gv g', star_ready HO h (XFin md : XR) g [s] goal = Ok (o, g) /\ fm2star_compute HO fuel o g = Ok (o', g') /\
    velocity_map dims g md gv /\
    (forall i, 0 <= i < box_size dims -> exists c c', getCell gv i = Ok c /\ getCell g' i = Ok c' /\ c_occ c' = c_occ c) /\
    (forall X i t, exact_solution dims (fun i => In i [goal]) (free gv) (slow gv) X -> times g' i = Some t -> exists x, X i = Some x /\ (x <= t)%R) /\
    times g' goal = Some 0%R /\
    ((exists t, times g' s = Some t) <-> reachable dims (fun i => In i [goal]) (free gv) s) /\
    (forall cs c v, in_box dims cs -> getCell g' (cell_number dims cs) = Ok c -> c_state c <> OPEN -> c_occ c = XFin v -> v <> 0%R ->
       c_h c = XFin (match h with NOHEUR => 0 | TIME => euclid cs scs / v | DISTANCE => euclid cs scs end)) /\
    times_ok g' /\ grid_ok dims g' /\ g_clean g' = false /\ f2_s o' = mkSolver GSet true [s] (Some goal).
Proof.
  intros dims g s goal md h fuel scs [Hcl [HP [Hob Hl]]] Hlen2 Hk16 Hs Hk Hne Hmd Hfuel Hscs Escs.
  pose proof HP as [Hsh [[Hg Hc] [Hre [Hnd Hr]]]]. pose proof Hsh as [H2 Hlt]. pose proof (dims2_proper' _ H2) as Hp.
  pose proof (box_size_pos _ Hp) as Hbp.
  destruct (C24_lookups_succeed XR dims scs h Hlen2 Hp ltac:(lia) Hk16 Hscs) as [dist [Hd Hready]].
  assert (Hrs : 0 <= s < box_size dims) by (destruct Hs as [c [Hs _]]; apply getCell_range in Hs; destruct Hg as [_ <-]; exact Hs).
  assert (Hrk : 0 <= goal < box_size dims) by (destruct Hk as [c [Hk _]]; apply getCell_range in Hk; destruct Hg as [_ <-]; exact Hk).
  destruct (in_range_not_goal _ _ Hsh Hrs) as [Hs1 Hs2]. destruct (in_range_not_goal _ _ Hsh Hrk) as [Hk1 Hk2].
  eexists. rewrite (star_ready_eq HO h (XFin md : XR) g [s] goal dist Hcl) by (rewrite (proj1 Hg); exact Hd). rewrite Hk2.
  set (fin := mkFmm (mkSolver GSet false [] None) (hempty HO) NOHEUR dist true []).
  assert (Esan : sanityChecks (mkSolver GSet false [s] (Some goal)) g = Ok 0).
  { unfold sanityChecks. cbn [sv_grid sv_init goal_of sv_goal]. rewrite Hcl. cbn [negb]. destruct Hs as [cs [Hcs Hos]]. rewrite Hcs. cbn [bind]. rewrite Hos.
    destruct (Z.eqb_spec (s32 goal) (-1)); [contradiction|]. cbn [negb]. destruct Hk as [ck [Hck Hok]]. rewrite Hck. cbn [bind]. rewrite Hok.
    cbn [existsb]. destruct (Z.eqb_spec (s32 goal) (s32 s)) as [E|]; [|reflexivity]. exfalso. apply Hne. symmetry. apply s32_inj; [lia|lia|exact E]. }
  set (o1 := mkFm2 (mkSolver GSet true [s] (Some goal)) (g_obs g) fin (XFin md : XR) h).
  assert (Esetup : fm2star_setup HO (mkFm2 (mkSolver GSet false [s] (Some goal)) (g_obs g) fin (XFin md : XR) h) g = Ok (o1, setClean g false)).
  { unfold fm2star_setup, fm2_setup, solver_setup. cbn [f2_s f2_sources f2_inner f2_maxDist f2_heur]. rewrite Esan. unfold o1. clear - Hl Hk1.
    destruct (g_obs g) as [|k0 kr]; [cbn in Hl; lia|]. cbn [bind Z.eqb negb sv_init length f2_s goal_of sv_goal sv_grid]. change (1 <? Z.of_nat 1) with false. cbn [bind f2_s goal_of sv_goal].
    destruct (Z.eqb_spec (s32 goal) (-1)); [contradiction|reflexivity]. }
  destruct (velocities_ok HO HL dims (setClean g false) o1 md fuel) as [st [log [gv [EV [Hclv [Hobv [HV [X He]]]]]]]].
  { apply exact_setClean. exact HP. } { exact Hl. } { exact Hob. } { exists s. exact Hs. } { reflexivity. } { reflexivity. } { exact Hmd. }
  { repeat split. } { exact Hfuel. }
  assert (HV' : velocity_map dims g md gv) by exact HV.
  pose proof (velocity_exact dims g gv md goal Hsh Hre HV' Hrk) as HPv. 
  pose proof (with_empty_laws HO (fs_h st) HL (key (fs_g st)) (si_wf _ _ _ _ _ _ _ (xs_s _ _ _ _ _ _ _ _ X)) He (xs_ord _ _ _ _ _ _ _ _ X)) as HL2.
  set (HO2 := with_empty HO (fs_h st)) in *.
  pose proof HPv as [_ [[Hgv Hcv] [Hrev [Hndv Hrv]]]].
  set (cfg := mkCfg h dist scs : fmm_cfg (N := XR)).
  assert (Hready' : heuristic_ready dims cfg) by exact Hready.
  destruct (C15_fmm_terminates_any_arithmetic XR XR_laws HO2 HL2 dims gv [goal] cfg s fuel Hsh (conj Hgv Hcv) (conj Hndv Hrv) Hready' (or_intror (ex_intro _ goal eq_refl)) Hfuel)
    as [sa [la [Ra [_ Hend]]]].
  pose proof (sim_run HO (fs_h st) fuel cfg s [goal] gv) as Hsim. fold HO2 in Hsim. unfold fmm_outcome in Ra. rewrite Ra in Hsim. cbn [rmap fst snd] in Hsim.
  exists (mkFm2 (mkSolver GSet true [s] (Some goal)) (g_obs g)
     (match h with NOHEUR => mkFmm (mkSolver GSet true [goal] (Some s)) (fs_h (conv HO (fs_h st) sa)) NOHEUR dist true []
                 | _ => mkFmm (mkSolver GSet true [goal] (Some s)) (fs_h (conv HO (fs_h st) sa)) h dist true scs end) (XFin md : XR) h), gv, (setClean (fs_g sa) false).
  split; [reflexivity|]. split.
  { unfold fm2star_compute, fm2_internal. cbn [f2_s sv_setup].
    fold fin. rewrite Esetup. cbn [bind]. rewrite EV. cbn [bind f2_s o1 goal_of sv_goal sv_init]. change (vget [s] 0) with (Ok s : res Z). cbn [bind].
    cbn [f2_inner f2_heur]. unfold fmm_setPoints, fmm_with_solver, setInitialAndGoalPoints. cbn [fo_s sv_setup sv_grid sv_init sv_goal goal_of fo_strat fo_dist fo_coord fo_band fo_pre fin].
    rewrite Hs2. unfold cfg in Hsim.
    assert (Ei : idx2coord (g_sh gv) s = Ok scs).
    { rewrite (proj1 Hgv). destruct (proj2 (idx_coord_bijection dims Hlen2 Hp ltac:(lia)) scs Hscs) as [i [B1 [_ [B3 B4]]]]. 
      assert (Hne' : dims <> []) by (intros ->; cbn in Hlen2; lia). rewrite (coord2idx_eq dims scs Hne' ltac:(lia) Hscs) in B1. rewrite Escs in B1. injection B1 as <-. exact B4. }
    unfold o1, fin. cbn [f2_s f2_sources f2_inner f2_maxDist f2_heur fo_dist fo_pre fo_coord].
    destruct h; cbn [fmm_setHeuristics bind goal_of fo_s sv_goal fo_pre].
    1: { unfold fmm_compute. cbn [fo_s sv_setup bind goal_of sv_goal fo_strat fo_dist fo_coord fo_band fo_pre sv_init].
         rewrite fmm_run_noheur by reflexivity. rewrite (fmm_run_noheur HO (mkCfg NOHEUR dist scs)) in Hsim by reflexivity. rewrite Hsim. reflexivity. }
    all: destruct (Z.eqb_spec (s32 s) (-1)); [contradiction|]; cbn [negb]; rewrite Ei; cbn [bind]; unfold fmm_compute;
         cbn [fo_s sv_setup bind goal_of sv_goal fo_strat fo_dist fo_coord fo_band fo_pre sv_init]; rewrite Hsim; reflexivity. }
  pose proof (fmm_run_frame (fun i => In i [goal]) HO2 fuel cfg s [goal] gv (hempty HO2) sa la ltac:(auto) Ra) as HF.
  destruct (C52_exact_solution_exists_and_is_unique dims gv [goal] HPv) as [X0 [HX0 _]].
  pose proof (C79_goal_time_with_any_heuristic HO2 HL2 dims gv [goal] cfg s fuel sa la X0 HPv Hready' (or_intror (ex_intro _ goal eq_refl)) HX0 Ra Hrs) as [KG1 KG2].
  split; [exact HV'|]. split.
  { intros i Hi. destruct (getCell_in dims gv i Hgv Hi) as [c Hci]. destruct HF as [_ [_ [_ [_ [_ F6]]]]]. destruct (F6 i c Hci) as [c' [J1 [J2 _]]]. exists c, c'. auto. }
  split. { intros Y i t HY Ht. exact (C53_no_solver_is_below_the_exact_solution dims gv [goal] Y (fs_g sa) i t HPv HY (sr_fmm _ _ _ _ _ _ _ _ _ Ra) Ht). }
  split.
  { pose proof (C16_single_source_at_zero XR HO2 HL2 gv goal cfg s fuel sa la Ra) as K. unfold time_is in K. unfold times.
    change (getArrivalTime (setClean (fs_g sa) false) goal) with (getArrivalTime (fs_g sa) goal). rewrite K. reflexivity. }
  split.
  { split.
    - intros [t Ht]. destruct (Classical_Prop.classic (reachable dims (fun i => In i [goal]) (free gv) s)) as [K|K]; [exact K|].
      specialize (KG2 K). unfold time_is in KG2. unfold times in Ht. change (getArrivalTime (setClean (fs_g sa) false) s) with (getArrivalTime (fs_g sa) s) in Ht.
      rewrite KG2 in Ht. discriminate.
    - intros K. destruct (KG1 K) as [t [x [E _]]]. exists t. unfold time_is in E. unfold times. change (getArrivalTime (setClean (fs_g sa) false) s) with (getArrivalTime (fs_g sa) s). rewrite E. reflexivity. }
  split.
  { intros cs c v Hcs Hcell Hst Hv Hv0. change (getCell (setClean (fs_g sa) false) (cell_number dims cs)) with (getCell (fs_g sa) (cell_number dims cs)) in Hcell.
    destruct (match h with NOHEUR => true | _ => false end) eqn:Eh.
    - assert (h = NOHEUR) by (destruct h; [reflexivity|discriminate|discriminate]). subst h.
      assert (Ra' : fmm_outcome HO2 no_heur s [goal] gv fuel sa la) by (unfold fmm_outcome; rewrite <- (fmm_run_noheur HO2 cfg) by reflexivity; exact Ra).
      assert (Hsv : separated dims gv [goal]) by (apply separated_one; exact Hp).
      destruct (run_X HO2 HL2 dims H2 Hlt no_heur eq_refl [goal] Hndv Hrv gv Hgv Hrev Hcv Hsv s fuel) as [sx [lx [Rx [Xx _]]]]; [lia|].
      assert (sx = sa) by (unfold fmm_outcome in Ra'; congruence). subst sx. exact (xs_h _ _ _ _ _ _ _ _ Xx _ _ Hcell).
    - assert (Hno : fc_strat cfg <> NOHEUR) by (unfold cfg; cbn; destruct h; [discriminate|discriminate|discriminate]).
      destruct (run_HV XR_laws HO2 HL2 dims H2 Hlt cfg [goal] Hready' Hno s fuel gv sa la Hgv (fun i c K => proj1 (proj2 (Hcv i c K))) Hndv Hrv (or_intror (ex_intro _ goal eq_refl)) Ra) as [_ D].
      destruct (D _ _ Hcell (or_introl Hst)) as [d [Ed Ehv]]. rewrite Ehv.
      assert (Ed' : getPrecomputedDistance cfg (mk_shape dims) (cell_number dims cs) = Ok (XFin (euclid cs scs) : XR)).
      { exact (C24_distance_is_euclidean dims scs h dist cs _ Hlen2 Hp ltac:(lia) Hk16 Hscs Hcs eq_refl Hd). }
      assert (d = (XFin (euclid cs scs) : XR)) by congruence. subst d. cbn [fc_strat cfg]. destruct h; [discriminate| |reflexivity].
      rewrite Hv. change (ndiv (XFin (euclid cs scs) : XR) (XFin v)) with (xdiv (XFin (euclid cs scs)) (XFin v)). cbn. unfold Reqb. destruct (Req_EM_T v 0); [contradiction|reflexivity]. }
  pose proof (run_FI HO2 HL2 dims H2 Hlt cfg [goal] Hready' s fuel gv sa la Hgv Hrev (fun i c K => conj (proj1 (Hcv i c K)) (proj1 (proj2 (Hcv i c K)))) Hndv Hrv (or_intror (ex_intro _ goal eq_refl)) Ra) as [[GA [GB GC]] _].
  split; [exact GB|]. split; [exact GA|]. split; reflexivity.
Qed.
Print Assumptions C80_star_computes.
End StarExact.

(** ** the distance table belongs to the map present when the points were given *)
(** FM2* computes the table in setInitialAndGoalPoints only: after setEnvironment with
    another map the heuristic still looks its distances up in the table of the old map. *)
Theorem C80_distances_are_of_the_map_at_setPoints :
  forall (N : Num) (HO : HeapOps N) h h2 md (g g2 : grid N) init goal (dist : list N) k gc,
  g_clean g = true -> precomputeDistances (g_sh g) = Ok dist -> h2 <> NOHEUR -> s32 k <> -1 -> idx2coord (g_sh (clean (clean g2))) (u32 k) = Ok gc -> 0 <= k < 4294967296 ->
  exists o o2 g2' i, star_ready HO h md g init goal = Ok (o, g) /\ fm2_setEnvironment HO o (Some g2) = Ok (o2, g2') /\
    fmm_setHeuristics HO (fmm_setPoints HO (f2_inner o2) init k) g2' h2 = Ok i /\ fo_dist i = dist /\ fo_coord i = gc /\ fo_strat i = h2.
Proof.
  intros N HO h h2 md g g2 init goal dist k gc Hcl Hd Hh Hk Egc Hkr. eexists _, _, _, _.
  split; [apply (star_ready_eq HO _ _ _ _ _ dist Hcl Hd)|]. split; [reflexivity|].
  assert (Eu : u32 k = k) by (unfold u32; apply Z.mod_small; lia). rewrite Eu in Egc.
  cbn [f2_inner fmm_setPoints fmm_with_solver fo_s fo_band fo_strat fo_dist fo_pre fo_coord setInitialAndGoalPoints].
  split; [|split; [|split]].
  - unfold fmm_setHeuristics. destruct h2; [contradiction| |];
      cbn; try rewrite Eu; destruct (Z.eqb_spec (s32 k) (-1)); try contradiction; cbn [negb]; rewrite Egc; cbn [bind]; reflexivity.
  - reflexivity.
  - reflexivity.
  - reflexivity.
Qed.

(** the consequence: a larger map set on the same object and the same points: the lookup
    leaves the table *)
Theorem C80_larger_map_needs_the_points_again :
  forall h, h = TIME \/ h = DISTANCE ->
  let g := setOccupiedCells (new_grid [2;2] (n1 : F64)) [2] in
  let g2 := setOccupiedCells (new_grid [6;6] (n1 : F64)) [2] in
  exists o o2, star_ready RefHeap h (nofZ 5) g [0] 1 = Ok (o, g) /\ fm2_setEnvironment RefHeap o (Some g2) = Ok (o2, g2) /\
    fm2star_compute RefHeap 100 o2 g2 = Fail UB /\
    exists o3 o4 g4, fm2star_setPoints RefHeap o2 g2 [0] 1 = Ok o3 /\ fm2star_compute RefHeap 100 o3 g2 = Ok (o4, g4).
Proof.
  intros h Hh g g2.
  destruct (precomputeDistances (N := F64) (mk_shape [2;2])) as [d|] eqn:Ed; [|exfalso; assert (K : match precomputeDistances (N := F64) (mk_shape [2;2]) with Ok _ => true | _ => false end = true) by (vm_compute; reflexivity); rewrite Ed in K; discriminate].
  eexists _, _. split; [apply (star_ready_eq RefHeap _ _ g _ _ d); [reflexivity|exact Ed]|]. split; [reflexivity|]. split.
  - assert (K : match precomputeDistances (N := F64) (mk_shape [2;2]) with Ok d =>
      match fm2star_compute RefHeap 100 (mkFm2 (mkSolver GSet false [0] (Some (u32 1))) [2] (mkFmm (mkSolver GSet false [] None) (hempty RefHeap) NOHEUR d true []) (nofZ 5) h) g2 with Fail UB => true | _ => false end | _ => false end = true)
      by (destruct Hh as [-> | ->]; vm_compute; reflexivity).
    rewrite Ed in K. change (clean (clean g2)) with g2. cbn [f2_s f2_sources f2_inner f2_maxDist f2_heur].
    match type of K with match ?x with _ => _ end = _ => match goal with |- ?y = _ => change y with x end; destruct x as [|[]]; try discriminate; reflexivity end.
  - match goal with |- exists o3 o4 g4, ?a = _ /\ _ => destruct a as [o3|e] eqn:E3 end.
    2:{ exfalso. unfold fm2star_setPoints, fmm_precompute in E3. cbn [fm2_setPoints f2_inner fo_s sv_grid fmm_with_solver] in E3.
        destruct (precomputeDistances (N := F64) (g_sh g2)) eqn:Ed2; [discriminate|].
        assert (K : match precomputeDistances (N := F64) (g_sh g2) with Ok _ => true | _ => false end = true) by (vm_compute; reflexivity). rewrite Ed2 in K. discriminate. }
    destruct (fm2star_compute RefHeap 100 o3 g2) as [[o4 g4]|e] eqn:E4; [exists o3, o4, g4; auto|]. exfalso.
    unfold fm2star_setPoints, fmm_precompute in E3. cbn [fm2_setPoints f2_inner fo_s sv_grid fmm_with_solver] in E3.
    assert (K : match precomputeDistances (N := F64) (g_sh g2) with Ok d2 =>
      match fm2star_compute RefHeap 100 (mkFm2 (mkSolver GSet false [0] (Some (u32 1))) [2] (mkFmm (mkSolver GSet false [] None) (hempty RefHeap) NOHEUR d2 true []) (nofZ 5) h) g2 with Ok _ => true | _ => false end | _ => false end = true)
      by (destruct Hh as [-> | ->]; vm_compute; reflexivity).
    destruct (precomputeDistances (N := F64) (g_sh g2)) as [d2|]; [|discriminate]. cbn [bind] in E3. injection E3 as <-.
    match type of K with match ?x with _ => _ end = _ => match type of E4 with ?y = _ => change y with x in E4 end; rewrite E4 in K; discriminate end.
Qed.
Print Assumptions C80_larger_map_needs_the_points_again.

(** cases: the hypotheses of C80_star_computes and of C79 (the map [ex_grid] of C15) *)
Example C80_case : fm2_map [3;3] fm2_case_grid /\ Forall (fun k => k <= 65536) [3;3] /\ free fm2_case_grid 2 /\ free fm2_case_grid 6 /\
  in_box [3;3] [2;0] /\ cell_number [3;3] [2;0] = 2.
Proof.
  destruct C40_case as [A [B C]]. split; [exact A|]. split; [repeat constructor; lia|]. split; [exact B|]. split; [exact C|].
  split; [repeat constructor; lia|reflexivity].
Qed.
Example C79_case : exact_problem [3;3] ex_grid [0] /\ exists d : list XR, precomputeDistances (mk_shape [3;3]) = Ok d /\ heuristic_ready [3;3] (mkCfg TIME d [2;2]).
Proof.
  split.
  - destruct C15_case as [[A [B [C [D E]]]] _]. split; [exact A|]. split; [exact B|]. split; [exact C|]. split; [repeat constructor; intros []|].
    intros i [<-|[]]; cbn; lia.
  - destruct (C24_lookups_succeed XR [3;3] [2;2] TIME) as [d H]; [cbn; lia| | | | |exists d; exact H];
      try (repeat (constructor; [lia|]); constructor).
Qed.

(** SolverModel.v - model of the solver objects: Solver (fm/solver.hpp) and the parts of
    FMM, FSM, LSM, DDQM, FIM, GMM and UFMM that live between calls (setEnvironment, setup,
    compute, reset).

    The grid an object points to is passed to, and returned by, every call; giving the
    object another grid is calling with that grid.  Names, timing and console output are
    not modelled.  [fuel] bounds the main loop of compute. *)
From Verif Require Import Base Num Grid Eikonal FMMModel SweepModel QueueModel UntidyModel.

(** grid_ (solver.hpp:219): never initialised by the constructors (lines 43-45) *)
Inductive gptr := GUninit | GNull | GSet.

(** solver.hpp:219-231: grid_, setup_, init_points_, goal_idx_ (None: never written) *)
Record solver := mkSolver { sv_grid : gptr; sv_setup : bool; sv_init : list Z; sv_goal : option Z }.

(** solver.hpp:43-45 constructors *)
Definition new_solver : solver := mkSolver GUninit false [] None.

Section Solver.
Context {N : Num}.

(** solver.hpp:50-54 setEnvironment; [None] is a null pointer (grid_->clean() on it) *)
Definition setEnvironment (s : solver) (g : option (grid N)) : res (solver * grid N) :=
  match g with
  | None => Fail UB
  | Some g => Ok (mkSolver GSet (sv_setup s) (sv_init s) (sv_goal s), clean g)
  end.

(** solver.hpp:57-61 *)
Definition setInitialAndGoalPoints (s : solver) (init : list Z) (goal : Z) : solver :=
  mkSolver (sv_grid s) (sv_setup s) init (Some (u32 goal)).

(** solver.hpp:64-68 *)
Definition setInitialPoints (s : solver) (init : list Z) : solver := setInitialAndGoalPoints s init (-1).

(** solver.hpp:71-79; the grid pointer is dereferenced *)
Definition setInitialAndGoalCoords (s : solver) (g : grid N) (ic gc : list Z) : res solver :=
  match sv_grid s with
  | GSet => i <- coord2idx (g_sh g) ic ;; k <- coord2idx (g_sh g) gc ;; Ok (setInitialAndGoalPoints s [i] k)
  | _ => Fail UB
  end.

(** solver.hpp:82-90 *)
Definition setInitialCoords (s : solver) (g : grid N) (ic : list Z) : res solver :=
  match sv_grid s with
  | GSet => i <- coord2idx (g_sh g) ic ;; Ok (setInitialAndGoalPoints s [i] (-1))
  | _ => Fail UB
  end.

(** goal_idx_ read: undefined before it is set *)
Definition goal_of (s : solver) : res Z := match sv_goal s with Some k => Ok k | None => Fail UB end.

(** solver.hpp:199-216 sanityChecks; int(x) is [s32 x] *)
Definition sanityChecks (s : solver) (g : grid N) : res Z :=
  match sv_grid s with
  | GUninit => Fail UB
  | GNull => Ok 1
  | GSet =>
      if negb (g_clean g) then Ok 2 else
      match sv_init s with
      | [] => Ok 3
      | i0 :: more =>
          bad4 <- (match more with [] => c <- getCell g i0 ;; Ok (isOccupied c) | _ => Ok false end) ;;
          if bad4 : bool then Ok 4 else
          k <- goal_of s ;;
          bad5 <- (if negb (s32 k =? -1) then c <- getCell g k ;; Ok (isOccupied c) else Ok false) ;;
          if bad5 : bool then Ok 5 else
          if existsb (fun i => s32 k =? s32 i) (i0 :: more) then Ok 6 else Ok 0
      end
  end.

(** solver.hpp:93-125 setup *)
Definition solver_setup (s : solver) (g : grid N) : res (solver * grid N) :=
  err <- sanityChecks s g ;;
  if negb (err =? 0) then Fail (Exit 1)
  else Ok (mkSolver (sv_grid s) true (sv_init s) (sv_goal s), setClean g false).

(** [if (!setup_) setup();] *)
Definition ensure_setup (s : solver) (g : grid N) : res (solver * grid N) :=
  if sv_setup s then Ok (s, g) else solver_setup s g.

(** solver.hpp:167-172 clear *)
Definition solver_clear (s : solver) : solver := mkSolver (sv_grid s) false [] (Some (u32 (-1))).

(** solver.hpp:175-179 reset *)
Definition solver_reset (s : solver) (g : grid N) : res (solver * grid N) :=
  match sv_grid s with
  | GSet => Ok (mkSolver (sv_grid s) false (sv_init s) (sv_goal s), clean g)
  | _ => Fail UB
  end.

(** ** FMM (and FMM*, SFMM, SFMM* with other heaps and strategies) *)
Section FMMObj.
Variable HO : HeapOps N.

(** fmm.hpp:237-253: narrow_band_, heurStrategy_, distances_, precomputed_, heur_coord_ *)
Record fmm_obj := mkFmm {
  fo_s : solver; fo_band : heap HO; fo_strat : HeurStrategy; fo_dist : list N; fo_pre : bool; fo_coord : list Z
}.

(** fmm.hpp:67-73 constructors *)
Definition fmm_new (h : HeurStrategy) : fmm_obj := mkFmm new_solver (hempty HO) h [] false [].

Definition fmm_with_solver (o : fmm_obj) (s : solver) : fmm_obj :=
  mkFmm s (fo_band o) (fo_strat o) (fo_dist o) (fo_pre o) (fo_coord o).

(** fmm.hpp:152-160 setHeuristics.  The writes of precomputeDistances are taken to
    reach the reserved storage (see [precompute_strict] for the strict reading). *)
Definition fmm_setHeuristics (o : fmm_obj) (g : grid N) (h : HeurStrategy) : res fmm_obj :=
  match h with
  | NOHEUR => Ok o
  | _ => k <- goal_of (fo_s o) ;;
         if negb (s32 k =? -1) then
           gc <- idx2coord (g_sh g) k ;;
           if fo_pre o then Ok (mkFmm (fo_s o) (fo_band o) h (fo_dist o) true gc)
           else d <- precomputeDistances (g_sh g) ;;
                Ok (mkFmm (fo_s o) (fo_band o) h d true gc)
         else Ok o
  end.

(** fmm.hpp:78-88 setup *)
Definition fmm_setup (o : fmm_obj) (g : grid N) : res (fmm_obj * grid N) :=
  '(s1, g1) <- solver_setup (fo_s o) g ;;
  o1 <- fmm_setHeuristics (fmm_with_solver o s1) g1 (fo_strat o) ;;
  k <- goal_of s1 ;;
  match fo_strat o1 with
  | NOHEUR => Ok (o1, g1)
  | _ => if s32 k =? -1
         then Ok (mkFmm (fo_s o1) (fo_band o1) NOHEUR (fo_dist o1) (fo_pre o1) (fo_coord o1), g1)
         else Ok (o1, g1)
  end.

(** fmm.hpp:91-148 computeInternal *)
Definition fmm_compute (fuel : nat) (o : fmm_obj) (g : grid N) : res (fmm_obj * grid N) :=
  '(o1, g1) <- (if sv_setup (fo_s o) then Ok (o, g) else fmm_setup o g) ;;
  k <- goal_of (fo_s o1) ;;
  '(st, _) <- fmm_run HO fuel (mkCfg (fo_strat o1) (fo_dist o1) (fo_coord o1)) k (sv_init (fo_s o1)) g1 (fo_band o1) ;;
  Ok (mkFmm (fo_s o1) (fs_h st) (fo_strat o1) (fo_dist o1) (fo_pre o1) (fo_coord o1), fs_g st).

(** fmm.hpp:175-179 reset *)
Definition fmm_reset (o : fmm_obj) (g : grid N) : res (fmm_obj * grid N) :=
  '(s1, g1) <- solver_reset (fo_s o) g ;;
  Ok (mkFmm s1 (hempty HO) (fo_strat o) (fo_dist o) (fo_pre o) (fo_coord o), g1).

(** fmm.hpp:168-173 clear: the clear of the base class is not called.  distances_ has size 0
    all the time (it is only reserved), so that clearing it leaves the reserved storage as it is *)
Definition fmm_clear (o : fmm_obj) : fmm_obj :=
  mkFmm (fo_s o) (hempty HO) (fo_strat o) (fo_dist o) false (fo_coord o).

(** inherited setEnvironment and setInitialAndGoalPoints *)
Definition fmm_setEnvironment (o : fmm_obj) (g : option (grid N)) : res (fmm_obj * grid N) :=
  '(s1, g1) <- setEnvironment (fo_s o) g ;; Ok (fmm_with_solver o s1, g1).
Definition fmm_setPoints (o : fmm_obj) (init : list Z) (goal : Z) : fmm_obj :=
  fmm_with_solver o (setInitialAndGoalPoints (fo_s o) init goal).

End FMMObj.

(** ** FSM and LSM *)
(** fsm.hpp:193-222: sweeps_, maxSweeps_, incs_, and the copy dimsize_ of the grid's
    dimensions made by setEnvironment.  keepSweeping_ and stopPropagation_ are set
    by every compute; inits_/ends_ are recomputed by setSweep. *)
Record fsm_obj := mkFsm { so_s : solver; so_sweeps : Z; so_max : Z; so_incs : list Z; so_dims : list Z }.

(** fsm.hpp:44-50; incs_ is uninitialised until setup *)
Definition fsm_new (maxSweeps : Z) : fsm_obj := mkFsm new_solver 0 (u32 maxSweeps) [] [].

(** fsm.hpp:54-67 *)
Definition fsm_setEnvironment (o : fsm_obj) (g : option (grid N)) : res (fsm_obj * grid N) :=
  '(s1, g1) <- setEnvironment (so_s o) g ;;
  Ok (mkFsm s1 (so_sweeps o) (so_max o) (so_incs o) (s_dims (g_sh g1)), g1).

Definition fsm_setPoints (o : fsm_obj) (init : list Z) (goal : Z) : fsm_obj :=
  mkFsm (setInitialAndGoalPoints (so_s o) init goal) (so_sweeps o) (so_max o) (so_incs o) (so_dims o).

(** fsm.hpp:70-76 *)
Definition fsm_setup (o : fsm_obj) (g : grid N) : res (fsm_obj * grid N) :=
  '(s1, g1) <- solver_setup (so_s o) g ;;
  Ok (mkFsm s1 (so_sweeps o) (so_max o) (init_incs (length (so_dims o))) (so_dims o), g1).

(** fsm.hpp:79-97 computeInternal, with [run] the sweeping part of FSM or LSM
    (lsm.hpp:48-78).  The sweep bounds come from the copy dimsize_: the run is modelled only
    when it still is the grid's shape. *)
Definition sweep_compute (run : nat -> Z -> Z -> list Z -> Z -> list Z -> grid N -> res (sw_state (N := N) * Z * list Z))
    (fuel : nat) (o : fsm_obj) (g : grid N) : res (fsm_obj * grid N) :=
  '(o1, g1) <- (if sv_setup (so_s o) then Ok (o, g) else fsm_setup o g) ;;
  k <- goal_of (so_s o1) ;;
  '(st, sw, incs) <- run fuel (so_max o1) k (sv_init (so_s o1)) (so_sweeps o1) (so_incs o1) g1 ;;
  Ok (mkFsm (so_s o1) sw (so_max o1) incs (so_dims o1), sw_g st).
Definition fsm_compute := sweep_compute fsm_run.
Definition lsm_compute := sweep_compute lsm_run.

(** fsm.hpp:99-104 *)
Definition fsm_reset (o : fsm_obj) (g : grid N) : res (fsm_obj * grid N) :=
  '(s1, g1) <- solver_reset (so_s o) g ;;
  Ok (mkFsm s1 0 (so_max o) (init_incs (length (so_dims o))) (so_dims o), g1).

(** lsm.hpp:80-85 *)
Definition lsm_reset (o : fsm_obj) (g : grid N) : res (fsm_obj * grid N) :=
  '(o1, g1) <- fsm_reset o g ;;
  g2 <- freeze_all g1 ;;
  Ok (o1, g2).

(** FSM and LSM inherit Solver::clear (solver.hpp:167-172) *)
Definition fsm_clear (o : fsm_obj) : fsm_obj :=
  mkFsm (solver_clear (so_s o)) (so_sweeps o) (so_max o) (so_incs o) (so_dims o).

(** ** DDQM *)
(** ddqm.hpp:182-199: threshold_, thStep_ (None: not set yet), queues_[0], queues_[1] *)
Record ddqm_obj := mkDdqm { do_s : solver; do_th : option N; do_step : option N; do_q0 : list Z; do_q1 : list Z }.

Definition ddqm_new : ddqm_obj := mkDdqm new_solver None None [] [].

(** ddqm.hpp:47-52 *)
Definition ddqm_setEnvironment (o : ddqm_obj) (g : option (grid N)) : res (ddqm_obj * grid N) :=
  '(s1, g1) <- setEnvironment (do_s o) g ;;
  Ok (mkDdqm s1 (Some (ddqm_env_step g1)) (Some (ddqm_env_step g1)) (do_q0 o) (do_q1 o), g1).

Definition ddqm_setPoints (o : ddqm_obj) (init : list Z) (goal : Z) : ddqm_obj :=
  mkDdqm (setInitialAndGoalPoints (do_s o) init goal) (do_th o) (do_step o) (do_q0 o) (do_q1 o).

(** ddqm.hpp:55-130 *)
Definition ddqm_compute (fuel : nat) (o : ddqm_obj) (g : grid N) : res (ddqm_obj * grid N) :=
  '(s1, g1) <- ensure_setup (do_s o) g ;;
  k <- goal_of s1 ;;
  match do_th o, do_step o with
  | Some th, Some step =>
      '(r, q0, q1) <- ddqm_resume fuel k (sv_init s1) th step (do_q0 o) (do_q1 o) g1 ;;
      Ok (mkDdqm s1 (Some (dq_th r)) (Some (dq_step r)) q0 q1, dq_g r)
  | _, _ => Fail UB
  end.

(** ddqm.hpp:150-161 *)
Definition ddqm_reset (o : ddqm_obj) (g : grid N) : res (ddqm_obj * grid N) :=
  '(s1, g1) <- solver_reset (do_s o) g ;;
  Ok (mkDdqm s1 (Some (ddqm_reset_step g1)) (Some (ddqm_reset_step g1)) [] [], g1).

(** DDQM inherits Solver::clear (solver.hpp:167-172) *)
Definition ddqm_clear (o : ddqm_obj) : ddqm_obj :=
  mkDdqm (solver_clear (do_s o)) (do_th o) (do_step o) (do_q0 o) (do_q1 o).

(** ** FIM *)
(** fim.hpp:120-126: active_list_, E_ *)
Record fim_obj := mkFimObj { io_s : solver; io_list : list Z; io_E : N }.
Definition fim_new (E : N) : fim_obj := mkFimObj new_solver [] E.
Definition fim_setEnvironment (o : fim_obj) (g : option (grid N)) : res (fim_obj * grid N) :=
  '(s1, g1) <- setEnvironment (io_s o) g ;; Ok (mkFimObj s1 (io_list o) (io_E o), g1).
Definition fim_setPoints (o : fim_obj) (init : list Z) (goal : Z) : fim_obj :=
  mkFimObj (setInitialAndGoalPoints (io_s o) init goal) (io_list o) (io_E o).

(** fim.hpp:45-99 *)
Definition fim_compute (fuel : nat) (o : fim_obj) (g : grid N) : res (fim_obj * grid N) :=
  '(s1, g1) <- ensure_setup (io_s o) g ;;
  k <- goal_of s1 ;;
  '(g2, l, _) <- fim_resume fuel (io_E o) k (sv_init s1) (io_list o) g1 ;;
  Ok (mkFimObj s1 l (io_E o), g2).

(** fim.hpp:106-110 *)
Definition fim_reset (o : fim_obj) (g : grid N) : res (fim_obj * grid N) :=
  '(s1, g1) <- solver_reset (io_s o) g ;; Ok (mkFimObj s1 [] (io_E o), g1).

(** fim.hpp:101-104 clear: the clear of the base class is not called *)
Definition fim_clear (o : fim_obj) : fim_obj := mkFimObj (io_s o) [] (io_E o).

(** ** GMM *)
(** gmm.hpp:168-177: deltau_, gamma_; tm_ is set by every compute *)
Record gmm_obj := mkGmmObj { go_s : solver; go_dt : N; go_gamma : list Z }.
Definition gmm_new (dt : N) : gmm_obj := mkGmmObj new_solver dt [].
Definition gmm_setEnvironment (o : gmm_obj) (g : option (grid N)) : res (gmm_obj * grid N) :=
  '(s1, g1) <- setEnvironment (go_s o) g ;; Ok (mkGmmObj s1 (go_dt o) (go_gamma o), g1).
Definition gmm_setPoints (o : gmm_obj) (init : list Z) (goal : Z) : gmm_obj :=
  mkGmmObj (setInitialAndGoalPoints (go_s o) init goal) (go_dt o) (go_gamma o).

(** gmm.hpp:42-51 *)
Definition gmm_setup (o : gmm_obj) (g : grid N) : res (gmm_obj * grid N) :=
  '(s1, g1) <- solver_setup (go_s o) g ;;
  Ok (mkGmmObj s1 (gmm_setup_dt (go_dt o) g1) (go_gamma o), g1).

(** gmm.hpp:54-145 *)
Definition gmm_compute (fuel : nat) (o : gmm_obj) (g : grid N) : res (gmm_obj * grid N) :=
  '(o1, g1) <- (if sv_setup (go_s o) then Ok (o, g) else gmm_setup o g) ;;
  k <- goal_of (go_s o1) ;;
  r <- gmm_resume fuel (go_dt o1) k (sv_init (go_s o1)) (go_gamma o1) g1 ;;
  Ok (mkGmmObj (go_s o1) (go_dt o1) (gm_l r), gm_g r).

(** gmm.hpp:152-157 *)
Definition gmm_reset (o : gmm_obj) (g : grid N) : res (gmm_obj * grid N) :=
  '(s1, g1) <- solver_reset (go_s o) g ;; Ok (mkGmmObj s1 (go_dt o) [], g1).

(** gmm.hpp:147-150 clear: the clear of the base class is not called *)
Definition gmm_clear (o : gmm_obj) : gmm_obj := mkGmmObj (go_s o) (go_dt o) [].

(** ** UFMM *)
(** ufmm.hpp:128-136: narrow_band_ *)
Record ufmm_obj := mkUfmmObj { uo_s : solver; uo_q : uq (N := N) }.
(** ufmm.hpp:39-47 *)
Definition ufmm_new (size : Z) (inc : N) : ufmm_obj := mkUfmmObj new_solver (uq_new size inc).
Definition ufmm_setEnvironment (o : ufmm_obj) (g : option (grid N)) : res (ufmm_obj * grid N) :=
  '(s1, g1) <- setEnvironment (uo_s o) g ;; Ok (mkUfmmObj s1 (uo_q o), g1).
Definition ufmm_setPoints (o : ufmm_obj) (init : list Z) (goal : Z) : ufmm_obj :=
  mkUfmmObj (setInitialAndGoalPoints (uo_s o) init goal) (uo_q o).

(** ufmm.hpp:52-97 *)
Definition ufmm_compute (fuel : nat) (o : ufmm_obj) (g : grid N) : res (ufmm_obj * grid N) :=
  '(s1, g1) <- ensure_setup (uo_s o) g ;;
  k <- goal_of s1 ;;
  '(st, _) <- ufmm_run fuel k (sv_init s1) g1 (uo_q o) ;;
  Ok (mkUfmmObj s1 (uf_q st), uf_g st).

(** ufmm.hpp:113-117 *)
Definition ufmm_reset (o : ufmm_obj) (g : grid N) : res (ufmm_obj * grid N) :=
  '(s1, g1) <- solver_reset (uo_s o) g ;; Ok (mkUfmmObj s1 (uq_clear (uo_q o)), g1).

(** UFMM together with the state of the memory narrow_band_ points to: [None] after it was
    deleted.  ufmm.hpp:108-111 clear deletes it without resetting the pointer; the
    destructor (line 49) calls clear again. *)
Definition ufmm_live := option ufmm_obj.
Definition ufmm_clear (o : ufmm_live) : res ufmm_live :=
  match o with Some _ => Ok None | None => Fail UB end.
Definition ufmm_destroy : ufmm_live -> res ufmm_live := ufmm_clear.
Definition ufmm_live_compute (fuel : nat) (o : ufmm_live) (g : grid N) : res (ufmm_live * grid N) :=
  match o with Some o => '(o', g') <- ufmm_compute fuel o g ;; Ok (Some o', g') | None => Fail UB end.
Definition ufmm_live_reset (o : ufmm_live) (g : grid N) : res (ufmm_live * grid N) :=
  match o with Some o => '(o', g') <- ufmm_reset o g ;; Ok (Some o', g') | None => Fail UB end.

End Solver.

Arguments mkFmm {N HO}. Arguments fo_s {N HO}. Arguments fo_band {N HO}. Arguments fo_strat {N HO}.
Arguments fo_dist {N HO}. Arguments fo_pre {N HO}. Arguments fo_coord {N HO}.

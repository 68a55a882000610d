(** ExampleModel.v - model of the programs examples/test_fm.cpp, examples/test_fmm3d.cpp,
    examples/test_fm2.cpp and examples/test_fm_benchmark.cpp.

    Console output, timing, plots and the dynamic casts at the end of test_fm.cpp (lines
    75-89) are not modelled. *)
From Coq Require Import Ascii String.
From Verif Require Import Base Num Grid FMMModel HeapRef DaryModel SweepModel QueueModel UntidyModel SolverModel FibModel TextModel IOModel BenchModel CfgModel FM2Model GDModel PlotModel.
Open Scope Z_scope.
Open Scope list_scope.

Section Ex.
Context {N : Num}.

(** setup() through a pointer to Solver: ddqm.hpp:55-60 (its warning is not modelled); FIM and
    UFMM do not override the one of the base class, solver.hpp:93-124 *)
Definition ddqm_setup (o : ddqm_obj (N := N)) (g : grid N) : res (ddqm_obj (N := N) * grid N) :=
  '(s1, g1) <- solver_setup (do_s o) g ;; Ok (mkDdqm s1 (do_th o) (do_step o) (do_q0 o) (do_q1 o), g1).
Definition fim_setup (o : fim_obj (N := N)) (g : grid N) : res (fim_obj (N := N) * grid N) :=
  '(s1, g1) <- solver_setup (io_s o) g ;; Ok (mkFimObj s1 (io_list o) (io_E o), g1).
Definition ufmm_setup (o : ufmm_obj (N := N)) (g : grid N) : res (ufmm_obj (N := N) * grid N) :=
  '(s1, g1) <- solver_setup (uo_s o) g ;; Ok (mkUfmmObj s1 (uo_q o), g1).

(** a solver with its setup() *)
Record usolver := mkUS { us_s : bsolver N; us_setup : sc_obj (bs_class us_s) -> grid N -> res (sc_obj (bs_class us_s) * grid N) }.

(** test_fm.cpp:39-55: the solvers as [new] makes them *)
Definition uFMM (HO : HeapOps N) (fuel : nat) (strat : HeurStrategy) (nm : text) : usolver :=
  mkUS (mkBS (cFMM HO fuel) (fmm_new HO strat) nm) (fmm_setup HO).
Definition uFSM (fuel : nat) (maxSweeps : Z) (nm : text) : usolver := mkUS (mkBS (cFSM fuel) (fsm_new maxSweeps) nm) fsm_setup.
Definition uLSM (fuel : nat) (maxSweeps : Z) (nm : text) : usolver := mkUS (mkBS (cLSM fuel) (fsm_new maxSweeps) nm) fsm_setup.
Definition uDDQM (fuel : nat) (nm : text) : usolver := mkUS (mkBS (cDDQM fuel) ddqm_new nm) ddqm_setup.
Definition uFIM (fuel : nat) (E : N) (nm : text) : usolver := mkUS (mkBS (cFIM fuel) (fim_new E) nm) fim_setup.
Definition uGMM (fuel : nat) (dt : N) (nm : text) : usolver := mkUS (mkBS (cGMM fuel) (gmm_new dt) nm) gmm_setup.
Definition uUFMM (fuel : nat) (size : Z) (inc : N) (nm : text) : usolver := mkUS (mkBS (cUFMM fuel) (ufmm_new size inc) nm) ufmm_setup.

(** test_fm.cpp:58-69: every solver in turn on the same grid; [pre] says whether setup() is
    called before compute() (as test_fm does; test_fmm3d does not).  Result: the grid after
    each compute(). *)
Fixpoint one_by_one (pre : bool) (ss : list usolver) (init : list Z) (goal : Z) (g : grid N) : res (list (grid N)) :=
  match ss with
  | [] => Ok []
  | s :: rest =>
      '(o, g) <- sc_env (bs_class (us_s s)) (bs_obj (us_s s)) (Some g) ;;
      let o := sc_points (bs_class (us_s s)) o init goal in
      '(o, g) <- (if pre then us_setup s o g else Ok (o, g)) ;;
      '(_, g) <- sc_compute (bs_class (us_s s)) o g ;;
      gs <- one_by_one pre rest init goal g ;;
      Ok (g :: gs)
  end.

(** test_fmm3d.cpp:16-42 main: argv without the program name; without an argument a null
    pointer is opened.  If the file cannot be opened the grid stays as constructed, with
    uninitialised dimensions, and is used. *)
Context (readD : text -> option N) (showD : N -> text).
Definition test_fmm3d (fuel : nat) (args : list text) (textfile : text -> option text) : res (Z * list (text * text)) :=
  match args with
  | [] => Fail UB
  | f :: _ =>
      '(ok, g) <- loadMapFromText readD 3 (textfile f) empty_grid ;;
      if ok =? 0 then Fail UB else
      '(o, g) <- fmm_setEnvironment DaryHeap (fmm_new DaryHeap NOHEUR) (Some g) ;;
      s <- setInitialCoords (fo_s o) g [5; 5; 5] ;;
      '(_, g) <- fmm_compute DaryHeap fuel (fmm_with_solver DaryHeap o s) g ;;
      t <- saveGridValues showD g ;;
      Ok (0, [(str "3dresult.grid", t)])
  end.

(** test_fm2.cpp:45-54: FM2 and FM2* objects as [new] makes them, over a heap; their names are
    not modelled *)
Record planner := mkPlanner { pl_heap : HeapOps N; pl_obj : fm2_obj pl_heap; pl_star : bool }.
Definition pFM2 (HO : HeapOps N) : planner := mkPlanner HO (fm2_new HO (nofZ (-1))) false.
Definition pFM2Star (HO : HeapOps N) (h : HeurStrategy) : planner := mkPlanner HO (fm2star_new HO h (nofZ (-1))) true.
Definition fm2_planners : list planner :=
  [pFM2 DaryHeap; pFM2 FibHeap; pFM2 StdHeap;
   pFM2Star DaryHeap DISTANCE; pFM2Star DaryHeap TIME; pFM2Star FibHeap TIME; pFM2Star FibHeap DISTANCE;
   pFM2Star StdHeap TIME; pFM2Star StdHeap DISTANCE].

(** solver.hpp:71-79: setInitialAndGoalPoints by coordinates, which calls the virtual one by
    indices (fm2star.hpp:68-73 for FM2-star) *)
Definition pl_points (p : planner) (o : fm2_obj (pl_heap p)) (g : grid N) (ic gc : list Z) : res (fm2_obj (pl_heap p)) :=
  match sv_grid (f2_s o) with
  | GSet => i <- coord2idx (g_sh g) ic ;; k <- coord2idx (g_sh g) gc ;;
            if pl_star p then fm2star_setPoints (pl_heap p) o g [i] k else Ok (fm2_setPoints (pl_heap p) o [i] k)
  | _ => Fail UB
  end.

(** what a turn leaves behind: the grid, the path, the velocities along it and the picture *)
Record turn_out := mkTurn { to_grid : grid N; to_path : list (list N); to_vels : list N; to_image : image N }.

(** test_fm2.cpp:57-73: the body of the loop.  The static_cast to FM2 over the default heap
    (line 70), which is wrong for the Fibonacci and the sorted heaps, is taken to reach the
    virtual computePath of the object. *)
Definition fm2_turn (fuel pfuel : nat) (p : planner) (w h : Z) (img : Z -> Z -> N) (g : grid N) : res turn_out :=
  g <- loadMapFromImg w h img g ;;
  '(o, g) <- fm2_setEnvironment (pl_heap p) (pl_obj p) (Some g) ;;
  o <- pl_points p o g [30; 20] [375; 280] ;;
  '(o, g) <- (if pl_star p then fm2star_compute (pl_heap p) fuel o g else fm2_compute (pl_heap p) fuel o g) ;;
  '(_, path, vel) <- fm2_computePath pfuel o g [] [] n1 ;;
  im <- plotArrivalTimesPath g path ;;
  Ok (mkTurn g path vel im).

Fixpoint fm2_turns (fuel pfuel : nat) (ps : list planner) (w h : Z) (img : Z -> Z -> N) (g : grid N) : res (list turn_out) :=
  match ps with
  | [] => Ok []
  | p :: rest => t <- fm2_turn fuel pfuel p w h img g ;; ts <- fm2_turns fuel pfuel rest w h img (to_grid t) ;; Ok (t :: ts)
  end.

(** test_fm2.cpp:22-80 main: argv with the program name.  The file is opened anew by every
    solver; it is taken not to change meanwhile. *)
Definition test_fm2 (fuel pfuel : nat) (argv : list text) (image : text -> option (Z * Z * (Z -> Z -> N))) : res (Z * list turn_out) :=
  if Z.of_nat (List.length argv) <=? 2 then Fail (Exit 1) else
  '(_, file) <- parseScalar (fun a => a) argv (str "-map") [] ;;
  match image file with
  | None => Fail abort
  | Some (w, h, img) => ts <- fm2_turns fuel pfuel fm2_planners w h img empty_grid ;; Ok (0, ts)
  end.

(** test_fm_benchmark.cpp:60-75: the solvers added, in order *)
Definition benchmark_solvers (fuel : nat) : list (bsolver N) :=
  map (construct fuel)
    [mkMade KFMM None []; mkMade KFMMStar None []; mkMade KFMMStar (Some (str "FMM*_Dist")) [AStrat SDISTANCE];
     mkMade KFMMFib (Some (str "FMFib")) []; mkMade KFMMFibStar (Some (str "FMM*Fib")) []; mkMade KFMMFibStar (Some (str "FMM*Fib_Dist")) [AStrat SDISTANCE];
     mkMade KSFMM None []; mkMade KSFMMStar None []; mkMade KSFMMStar (Some (str "SFMM*_Dist")) [AStrat SDISTANCE];
     mkMade KGMM None []; mkMade KFIM None []; mkMade KUFMM None []; mkMade KFSM None []; mkMade KLSM None []; mkMade KDDQM None []].

(** test_fm_benchmark.cpp:27-81 main; the program leaves the constructor's saveGrid_ = 0
    (benchmark.hpp:38), [saveGrid] stands for a call of setSaveGrid.  The result holds the log, which
    is printed. *)
Definition test_fm_benchmark (fuel : nat) (saveGrid : Z) (timeOf : Z -> text) : res (bench N * grid N) :=
  let g := new_grid [300; 300] n1 in
  i <- coord2idx (g_sh g) [150; 150] ;;
  k <- coord2idx (g_sh g) [250; 250] ;;
  bench_run showD timeOf (mkBench (benchmark_solvers fuel) [i] k saveGrid 0 3 (str "Testing_Benchmark") [] []) g.
End Ex.
Arguments usolver : clear implicits.
Arguments planner : clear implicits. Arguments turn_out : clear implicits.

(** BenchModel.v - model of benchmark/benchmark.hpp.

    Solvers are used through the virtual functions of Solver only.  Timing, progress
    display and directory creation are not modelled; [timeOf id] is the text printed for
    getTime() of run [id].  Files are the list of writes (name, content) in order; a later
    write to the same name replaces the earlier one. *)
From Coq Require Import Ascii String.
From Verif Require Import Base Num Grid FMMModel SweepModel QueueModel UntidyModel SolverModel TextModel IOModel.
Open Scope Z_scope.
Open Scope list_scope.

Section Bench.
Context {N : Num}.

(** the virtual interface of Solver<grid_t> *)
Record sclass := mkClass {
  sc_obj : Type;
  sc_env : sc_obj -> option (grid N) -> res (sc_obj * grid N);
  sc_points : sc_obj -> list Z -> Z -> sc_obj;
  sc_reset : sc_obj -> grid N -> res (sc_obj * grid N);
  sc_compute : sc_obj -> grid N -> res (sc_obj * grid N)
}.
(** an object and its getName() *)
Record bsolver := mkBS { bs_class : sclass; bs_obj : sc_obj bs_class; bs_name : text }.

(** the classes of the library; [fuel] bounds the main loops *)
Definition cFMM (HO : HeapOps N) (fuel : nat) : sclass :=
  mkClass (fmm_obj HO) (fmm_setEnvironment HO) (fmm_setPoints HO) (fmm_reset HO) (fmm_compute HO fuel).
Definition cFSM (fuel : nat) : sclass := mkClass fsm_obj fsm_setEnvironment fsm_setPoints fsm_reset (fsm_compute fuel).
Definition cLSM (fuel : nat) : sclass := mkClass fsm_obj fsm_setEnvironment fsm_setPoints lsm_reset (lsm_compute fuel).
Definition cDDQM (fuel : nat) : sclass := mkClass ddqm_obj ddqm_setEnvironment ddqm_setPoints ddqm_reset (ddqm_compute fuel).
Definition cFIM (fuel : nat) : sclass := mkClass fim_obj fim_setEnvironment fim_setPoints fim_reset (fim_compute fuel).
Definition cGMM (fuel : nat) : sclass := mkClass gmm_obj gmm_setEnvironment gmm_setPoints gmm_reset (gmm_compute fuel).
Definition cUFMM (fuel : nat) : sclass := mkClass ufmm_obj ufmm_setEnvironment ufmm_setPoints ufmm_reset (ufmm_compute fuel).

(** benchmark.hpp:243-279 members (solvers_, init_points_, goal_idx_, saveGrid_, runID_,
    nruns_, name_) and what has been written: log_ and the grid files *)
Record bench := mkBench {
  b_solvers : list bsolver; b_init : list Z; b_goal : Z; b_saveGrid : Z; b_runID : Z; b_nruns : Z; b_name : text;
  b_log : text; b_files : list (text * text)
}.

Context (showD : N -> text) (timeOf : Z -> text).

(** benchmark.hpp:224-231 configSolvers *)
Fixpoint configSolvers (l : list bsolver) (init : list Z) (goal : Z) (g : grid N) : res (list bsolver * grid N) :=
  match l with
  | [] => Ok ([], g)
  | s :: r =>
      '(o, g1) <- sc_env (bs_class s) (bs_obj s) (Some g) ;;
      let s1 := mkBS (bs_class s) (sc_points (bs_class s) o init goal) (bs_name s) in
      '(r1, g2) <- configSolvers r init goal g1 ;;
      Ok (s1 :: r1, g2)
  end.

(** benchmark.hpp:208-221 logConfig; getDimSizesStr (ndgridmap.hpp:298-304) ends every
    dimension with a tab *)
Definition logConfig (b : bench) (g : grid N) : text :=
  b_name b ++ [tab] ++ showU (b_nruns b) ++ [tab] ++ showU (Z.of_nat (List.length (s_dims (g_sh g)))) ++ [tab] ++
  flat_map (fun d => showU d ++ [tab]) (s_dims (g_sh g)) ++
  showU (Z.of_nat (List.length (b_init b))) ++ [tab] ++ flat_map (fun i => showU i ++ [tab]) (b_init b) ++
  (if s32 (b_goal b) =? -1 then str "nan" else showU (b_goal b)).

(** benchmark.hpp:234-241 formatID: width 4, filled with zeros *)
Definition formatID (id : Z) : text :=
  let t := showU id in repeat "0"%char (4 - List.length t) ++ t.

(** boost::filesystem::path::replace_extension(".grid") on a file name: the part from the
    last dot on is dropped.  The names "." and ".." and names with '/' are not treated. *)
Fixpoint stem (t : text) : option text :=
  match t with
  | [] => None
  | c :: r => match stem r with
              | Some s => Some (c :: s)
              | None => if Ascii.eqb c "." then Some [] else None
              end
  end.
Definition grid_file (t : text) : text := (match stem t with Some s => s | None => t end) ++ str ".grid".

(** benchmark.hpp:154-164 logRun *)
Definition log_line (id : Z) (name : text) : text := newline :: formatID id ++ [tab] ++ name ++ [tab] ++ timeOf id.

(** benchmark.hpp:128-141: the runs of one solver, [n] to go *)
Fixpoint runs (n : nat) (saveGrid : Z) (name : text) (c : sclass) (o : sc_obj c) (g : grid N) (id : Z) (log : text) (files : list (text * text))
  : res (sc_obj c * grid N * Z * text * list (text * text)) :=
  match n with
  | O => Ok (o, g, id, log, files)
  | S n =>
      let id := u32 (id + 1) in
      '(o, g) <- sc_reset c o g ;;
      '(o, g) <- sc_compute c o g ;;
      let log := log ++ log_line id name in
      files <- (if saveGrid =? 2 then t <- saveGridValues showD g ;; Ok (files ++ [(grid_file (formatID id), t)]) else Ok files) ;;
      runs n saveGrid name c o g id log files
  end.

(** benchmark.hpp:126-145: all solvers *)
Fixpoint run_solvers (l : list bsolver) (saveGrid nruns : Z) (g : grid N) (id : Z) (log : text) (files : list (text * text))
  : res (list bsolver * grid N * Z * text * list (text * text)) :=
  match l with
  | [] => Ok ([], g, id, log, files)
  | s :: r =>
      '(o, g, id, log, files) <- runs (Z.to_nat nruns) saveGrid (bs_name s) (bs_class s) (bs_obj s) g id log files ;;
      files <- (if saveGrid =? 1 then t <- saveGridValues showD g ;; Ok (files ++ [(grid_file (bs_name s), t)]) else Ok files) ;;
      '(o, g) <- sc_reset (bs_class s) o g ;;
      '(r1, g, id, log, files) <- run_solvers r saveGrid nruns g id log files ;;
      Ok (mkBS (bs_class s) o (bs_name s) :: r1, g, id, log, files)
  end.

(** benchmark.hpp:108-151 run (the log is then printed or written to name_.log) *)
Definition bench_run (b : bench) (g : grid N) : res (bench * grid N) :=
  '(ss, g1) <- configSolvers (b_solvers b) (b_init b) (b_goal b) g ;;
  '(ss, g2, id, log, files) <- run_solvers ss (b_saveGrid b) (b_nruns b) g1 (b_runID b) (b_log b ++ logConfig b g1) (b_files b) ;;
  Ok (mkBench ss (b_init b) (b_goal b) (b_saveGrid b) id (b_nruns b) (b_name b) log files, g2).
End Bench.
Arguments sclass : clear implicits.
Arguments bsolver : clear implicits.
Arguments bench : clear implicits.

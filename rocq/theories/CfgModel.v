(** CfgModel.v - model of the program fm_benchmark (src/benchmark/fm_benchmark.cpp) and of
    the rest of benchmark/benchmarkcfg.hpp.

    boost::program_options::parse_config_file is not modelled: a configuration file is the
    list of its (section.key, value) pairs in file order.  An uncaught exception (a failed
    lexical_cast, a missing required option, a registered option given twice, an unreadable
    image) ends the program: [abort]. *)
From Coq Require Import Ascii String.
From Verif Require Import Base Num Grid FMMModel HeapRef DaryModel FibModel SweepModel QueueModel UntidyModel SolverModel TextModel IOModel BenchModel.
Open Scope Z_scope.
Open Scope list_scope.

(** the value stored for a key: the first pair with that key *)
Fixpoint lookup (k : text) (l : list (text * text)) : option text :=
  match l with
  | [] => None
  | (k', v) :: r => if text_eqb k' k then Some v else lookup k r
  end.

(** benchmarkcfg.hpp:79-91: the registered options *)
Definition registered : list text := map str
  ["grid.file"; "grid.text"; "grid.ndims"; "grid.cell"; "grid.dimsize"; "grid.leafsize";
   "problem.start"; "problem.goal"; "benchmark.name"; "benchmark.runs"; "benchmark.savegrid"]%string.
(** the default values of lines 82-91; [name] is the file name without its extension *)
Definition defaults (name : text) : list (text * text) :=
  [(str "grid.ndims", str "2"); (str "grid.cell", str "FMCell"); (str "grid.dimsize", str "200,200"); (str "grid.leafsize", str "1");
   (str "problem.goal", str "nan"); (str "benchmark.name", name); (str "benchmark.runs", str "10"); (str "benchmark.savegrid", str "0")].

Definition is_registered (kv : text * text) : bool := existsb (text_eqb (fst kv)) registered.
Fixpoint repeated (l : list text) : bool :=
  match l with [] => false | k :: r => existsb (text_eqb k) r || repeated r end.

(** path::filename and path::replace_extension("") (lines 74-76): what follows the last '/',
    without what follows its last dot; "." and ".." are not treated *)
Fixpoint basename (t : text) : text :=
  match t with
  | [] => []
  | c :: r => if existsb (Ascii.eqb "/"%char) t then basename r else t
  end.
Definition no_extension (t : text) : text := let f := basename t in match stem f with Some s => s | None => f end.

(** benchmarkcfg.hpp:60-125 readOptions: options_, and solverNames_ with ctorParams_.
    [None]: the file cannot be opened, readOptions returns false. *)
Definition readOptions (filename : text) (cfg : option (list (text * text))) : res (option (list (text * text) * list (text * text))) :=
  match cfg with
  | None => Ok None
  | Some l =>
      let reg := filter is_registered l in
      if repeated (map fst reg) then Fail abort else
      match lookup (str "problem.start") reg with
      | None => Fail abort
      | Some _ => Ok (Some (reg ++ defaults (no_extension filename), readSolvers (filter (fun kv => negb (is_registered kv)) l)))
      end
  end.

(** lines 305-313 getValue; a missing key gives lexical_cast<T>(0) *)
Definition getValue {T} (cast : text -> option T) (opts : list (text * text)) (k : text) : res T :=
  match cast (match lookup k opts with Some v => v | None => str "0" end) with Some v => Ok v | None => Fail abort end.
(** options_.find(k)->second: undefined if there is no such key *)
Definition option_at (opts : list (text * text)) (k : text) : res text :=
  match lookup k opts with Some v => Ok v | None => Fail UB end.

Section Cfg.
Context {N : Num} (castU : text -> option Z) (castD : text -> option N) (showD : N -> text) (readD : text -> option N) (timeOf : Z -> text).
(** the files a configuration can name: images as width, height and pixels, and text files *)
Context (image : text -> option (Z * Z * (Z -> Z -> N))) (textfile : text -> option text).

(** the constructors: fmm.hpp:67-73, fmmstar.hpp:67-73, sfmm.hpp:50-51, sfmmstar.hpp:43-44,
    gmm.hpp:36-38, fim.hpp:39-40, ufmm.hpp:40-47, fsm.hpp:44-50, lsm.hpp:43-45, ddqm.hpp:44;
    FMM uses FMDaryHeap by default.  Absent arguments take the defaults given there. *)
Definition heur (d : HeurStrategy) (args : list (ctorarg N)) : HeurStrategy :=
  match args with AStrat STIME :: _ => TIME | AStrat SDISTANCE :: _ => DISTANCE | _ => d end.
Definition uns (d : Z) (args : list (ctorarg N)) : Z := match args with AUns n :: _ => n | _ => d end.
Definition dbl (d : N) (args : list (ctorarg N)) : N := match args with ADbl x :: _ => x | _ => d end.
Definition construct (fuel : nat) (m : made N) : bsolver N :=
  let nm d := match md_name m with Some t => t | None => str d end in
  let a := md_args m in
  match md_kind m with
  | KFMM => mkBS (cFMM DaryHeap fuel) (fmm_new DaryHeap NOHEUR) (nm "FMM"%string)
  | KFMMStar => mkBS (cFMM DaryHeap fuel) (fmm_new DaryHeap (heur TIME a)) (nm "FMM*"%string)
  | KFMMFib => mkBS (cFMM FibHeap fuel) (fmm_new FibHeap NOHEUR) (nm "FMM"%string)
  | KFMMFibStar => mkBS (cFMM FibHeap fuel) (fmm_new FibHeap (heur TIME a)) (nm "FMM*"%string)
  | KSFMM => mkBS (cFMM StdHeap fuel) (fmm_new StdHeap NOHEUR) (nm "SFMM"%string)
  | KSFMMStar => mkBS (cFMM StdHeap fuel) (fmm_new StdHeap (heur TIME a)) (nm "SFMM*"%string)
  | KGMM => mkBS (cGMM fuel) (gmm_new (dbl (nsub n0 n1) a)) (nm "GMM"%string)
  | KFIM => mkBS (cFIM fuel) (fim_new (dbl n0 a)) (nm "FIM"%string)
  | KUFMM => mkBS (cUFMM fuel) (ufmm_new (uns 1000 a) (dbl (nofZ 2) (tl a))) (nm "UFMM"%string)
  | KFSM => mkBS (cFSM fuel) (fsm_new (uns 4294967295 a)) (nm "FSM"%string)
  | KLSM => mkBS (cLSM fuel) (fsm_new (uns 4294967295 a)) (nm "LSM"%string)
  | KDDQM => mkBS (cDDQM fuel) ddqm_new (nm "DDQM"%string)
  end.

(** ndgridmap.hpp:63 the default constructor *)
Definition empty_grid : grid N := mkGrid (mkShape [] [] 0) n1 [] true [].

(** benchmarkcfg.hpp:272-286: the map; loadMapFromImg leaves the third dimension size
    uninitialised *)
Definition cfg_grid (ndims : nat) (opts : list (text * text)) : res (grid N) :=
  match lookup (str "grid.file") opts with
  | Some f => match image f with
              | None => Fail abort
              | Some (w, h, img) => if Nat.eqb ndims 2 then loadMapFromImg w h img empty_grid else Fail UB
              end
  | None =>
      match lookup (str "grid.text") opts with
      | Some f => '(ok, g) <- loadMapFromText readD ndims (textfile f) empty_grid ;;
                  if ok =? 0 then Fail (Exit 1) else Ok g
      | None => t <- option_at opts (str "grid.dimsize") ;;
                dims <- splitAndCast castU ndims t ;;
                Ok (resize empty_grid dims)
      end
  end.

(** benchmarkcfg.hpp:127-303 configure: the benchmark and the map it will run on *)
Definition configure (fuel sfuel : nat) (ndims : nat) (opts solvers : list (text * text)) : res (bench N * grid N) :=
  name <- option_at opts (str "benchmark.name") ;;
  save <- getValue castU opts (str "benchmark.savegrid") ;;
  nruns <- getValue castU opts (str "benchmark.runs") ;;
  ms <- configure_solvers castU castD sfuel solvers ;;
  g <- cfg_grid ndims opts ;;
  leaf <- getValue castD opts (str "grid.leafsize") ;;
  let g := setLeafSize g leaf in
  t <- option_at opts (str "problem.start") ;;
  start <- splitAndCast castU ndims t ;;
  s <- coord2idx (g_sh g) start ;;
  t <- option_at opts (str "problem.goal") ;;
  goal <- (if text_eqb t (str "nan") then Ok (u32 (-1))
           else gc <- splitAndCast castU ndims t ;; coord2idx (g_sh g) gc) ;;
  Ok (mkBench (map (construct fuel) ms) [s] goal save 0 nruns name [] [], g).

(** the files written, with their paths (benchmark.hpp:108-119, 167-187): the grids in
    results/name/, the log as results/name.log *)
Definition results (b : bench N) : list (text * text) :=
  map (fun f => (str "results/" ++ b_name b ++ str "/" ++ fst f, snd f)) (b_files b) ++
  [(str "results/" ++ b_name b ++ str ".log", b_log b)].

(** fm_benchmark.cpp:39-99 main: argv without the program name; [file] is the parsed
    content of argv[1].  Result: the exit status and the files written. *)
Definition fm_benchmark (fuel sfuel : nat) (args : list text) (file : text -> option (list (text * text))) : res (Z * list (text * text)) :=
  match args with
  | [] => Ok (1, [])
  | f :: _ =>
      ro <- readOptions f (file f) ;;
      match ro with
      | None => Ok (0, [])
      | Some (opts, solvers) =>
          cell <- option_at opts (str "grid.cell") ;;
          if text_eqb cell (str "FMCell") then
            nd <- getValue castU opts (str "grid.ndims") ;;
            if (nd =? 2) || (nd =? 3) then
              '(b, g) <- configure fuel sfuel (Z.to_nat nd) opts solvers ;;
              '(b, _) <- bench_run showD timeOf b g ;;
              Ok (0, results b)
            else Ok (0, [])
          else Ok (0, [])
      end
  end.
End Cfg.

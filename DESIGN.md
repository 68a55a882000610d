# Formal model of jvgomez/fast_methods in Rocq (Coq 8.16.1)

## 1. What is modelled

The C++ code is header-only templates.  The model is a set of total, computable
Gallina functions, one per C++ function, each with a comment citing file and
lines.  Model files contain no proofs; `Spec.v`, `Obs.v`, `UntidySpec.v`,
`TextSpec.v`, `DescentSpec.v` and the definitions at the head of the `Prop_*.v`
files are the specification; `Prop_*.v` contain the property theorems, examples
that meet their hypotheses, and `Print Assumptions`; everything else is proof.

| model file | code |
|---|---|
| `Base`, `Num`, `NumF64`, `NumXR` | outcomes, vectors, `unsigned` wrap-around, `double` |
| `Grid` | `ndgridmap/cell.h`, `fmcell.h`, `ndgridmap.hpp` |
| `Eikonal` | `fm/eikonalsolver.hpp` |
| `FMMModel` | `fm/fmm.hpp` (FMM, FMM*, SFMM, SFMM* with their heuristics and distance table) over a heap |
| `HeapRef`, `DaryModel`, `FibModel` | `datastructures/fmpriorityqueue.hpp`, `fmdaryheap.hpp`, `fmfibheap.hpp`, `fmcompare.hpp` |
| `SweepModel` | `fm/fsm.hpp`, `fm/lsm.hpp` |
| `QueueModel` | `fm/ddqm.hpp`, `fm/fim.hpp`, `fm/gmm.hpp` |
| `UntidyModel` | `thirdparty/untidy_queue.hpp`, `datastructures/fmuntidyqueue.hpp`, `fm/ufmm.hpp` |
| `SolverModel` | `fm/solver.hpp` and the object life cycle (construction, setEnvironment, setInitialAndGoalPoints, setup, compute, reset, clear, destruction) of every solver |
| `FM2Model`, `GDModel` | `fm2/fm2.hpp`, `fm2/fm2star.hpp`, `gradientdescent/gradientdescent.hpp` |
| `TextModel` | `src/console/console.cpp`, `benchmark/benchmarkcfg.hpp` |
| `IOModel`, `PlotModel` | `io/maploader.hpp`, `io/gridwriter.hpp`, `io/gridplotter.hpp`, `io/gridpoints.hpp` |
| `BenchModel` | `benchmark/benchmark.hpp` |
| `CfgModel` | `src/benchmark/fm_benchmark.cpp` and the rest of `benchmark/benchmarkcfg.hpp` (options, map, start and goal) |
| `ExampleModel` | `examples/test_fm.cpp` 39-69 (several solvers in turn on one grid), `examples/test_fmm3d.cpp`, `examples/test_fm_benchmark.cpp` and `examples/test_fm2.cpp` (the static_cast at its line 70, wrong by the standard for six of nine planners, is taken to be the virtual call) |
| `HandleModel` | the handle table of `fmdaryheap.hpp`, `fmfibheap.hpp` (`setMaxSize`) |
| `ScriptModel` | `scripts/parseGrid.m`, `parsePath.m`, `parseBenchmarkLog.m` |

* **Numbers.** `double` is a record of operations `Num`.  Two instances:
  `F64` - IEEE-754 binary64 (Flocq `BinarySingleNaN`, round to nearest even,
  computable, one NaN), and `XR` - extended reals, exact arithmetic
  (finite real, +inf, -inf, NaN).  Structural theorems are proved for every `Num`
  satisfying a handful of laws (`NumLaws`), which are proved for both instances;
  most numeric theorems ("solves the Eikonal equation") are about `XR`; C76-C78
  carry them over to `F64` with explicit error bounds for FMM, FSM, LSM and DDQM;
  refutations are computed in `F64`.
  The Release flags of the repo (`-Ofast`) allow the compiler to
  reassociate; `F64` describes strict IEEE evaluation only.
* **Integers.** `unsigned int` is `Z` with explicit `mod 2^32`; signed `int` where
  the code uses it (sweeps: in `Z`, no overflow below 2^31 cells, which `shape_ok` implies).
* **Undefined behaviour, exit() and fuel.** Functions return `res`:
  `Ok v | Fail (UB | Exit n | OutOfFuel)`.  Any `cells_[i]` with `i` out of
  range is `UB`.  `while` loops run on fuel; termination theorems say some fuel suffices.
* **Heaps.** FMM is modelled over a heap interface and its theorems quantify over every lawful heap
  (every tie-break); the three heaps of the library are modelled concretely and proved lawful:
  libstdc++'s binary heap (`StdHeap`), boost's mutable d-ary heap with handles (`DaryHeap`),
  boost's Fibonacci heap with handles (`FibHeap`).  boost is not part of the repository; these follow
  its published source.  Simplifications: the consolidate table (64 slots in boost) is unbounded,
  the bound of the handle table (`setMaxSize`) is modelled separately (HandleModel.v, C86).
* **Strings and files.** `std::string` and file contents are lists of characters.  Decimal
  unsigned integers are printed and parsed exactly; printing and parsing of doubles are
  parameters (`showD`/`readD`) of the theorems that need them.  `boost::lexical_cast` and
  `program_options` are modelled at the level of option names and value texts.
* **Images.** A CImg image is width, height, channels and its vector of values with unchecked
  writes; mouse input is a list of events.
* **Reserved vectors.** `precomputeDistances` writes through `operator[]` into a vector that
  was only `reserve`d; GradientDescent reads strides the same way.  Both are modelled twice: as
  the memory behaves in practice (lenient) and as the standard says (strict, `UB`); theorems say which.

## 2. What is not modelled

CImg's image decoding, window and colour lookup tables; the contents of
printRunInfo and ANSI colouring; boost::filesystem (directory creation); chrono timing (getTime is an
opaque text); memory allocation failure; compile-time template errors; the Matlab
plotting scripts (showFM, plot_volumetric_data, analyzeBenchmark, test) and the example programs other than the solver loop of test_fm, test_fmm3d (C100), test_fm2 (C112) and test_fm_benchmark (C113); behaviour of the compiler after UB; `-Ofast` reassociation.

## 3. Plan per property

| id | model | proof |
|---|---|---|
| C01-C04 | `Grid.v` shape functions with u32 wrap | div/mod induction on dimensions; witness by vm_compute |
| C05 | `getMinValueInDim` with explicit `n_` buffer | case analysis from C02; witness |
| C06-C09 | grid record operations | induction on cells |
| C10-C12, C14 | `solveEikonal` over `XR` | algebra on sorted lists, loop invariant |
| C13 | `solveEikonal` over `F64` | vm_compute witness; Flocq rounding monotonicity |
| C15-C22, C39 | FMM loop over abstract heap | invariants over steps; simulation |
| C23 | FMM with heuristics, F64 | vm_compute witness |
| C24 | heuristic table | from C01; witness |
| C25, C26 | lifecycle (`Solver` state) | equational |
| C27 | libstdc++ binary heap | vm_compute witness |
| C28 | untidy queue | invariant over operation lists |
| C29, C30 | sweep enumeration | induction on dimensions |
| C31-C35 | FSM/LSM/DDQM | super/sub-solution invariants, well-founded measure, comparison principle |
| C36, C37 | FIM, GMM | invariants; non-termination by invariant |
| C38 | sanityChecks | decision table |
| C40-C42 | FM2, gradient descent | loop invariants, witnesses |
| C43, C44 | loaders/writers over pixel functions and token lists | bijection; round trip |
| C45-C48 | benchmark, cfg, console | induction, witnesses |
| C49-C51 | utils, compare, cell | generic laws, Flocq |
| C55 | FIM in exact arithmetic | coverage invariant: every cell is locally a sub-solution, listed, or next to a listed cell; comparison principle |
| C56 | GMM in exact arithmetic | band invariant, measure 2*OPEN + length of the band, Archimedes for the threshold |
| C57 | `fmm_obj` life cycle, setEnvironment on a used object | unfolding of the object operations + frame theorem; double witnesses by vm_compute |
| C58 | `fmm_obj` life cycle | case analysis on setup, invariance of the strategy field |
| C59 | splitAndCast over the getline model | induction over the fields |
| C60 | loadMapFromText over character files | induction over the value tokens |
| C61 | `fm2_obj` compute/reset/compute | the general `fm2_computes_from` lemma applied twice; double witness by vm_compute |
| C62 | GridWriter path/velocity/map files as character lists | splitting at newlines and tabs inverts the writer |
| C63 | coordinate setters of `Solver` | from C01 and C38 |
| C64 | clear() of every solver, with the life of the pointed-to queue/solver | unfolding; for FMM the reachability theorem of `FMMReach.v` |
| C65 | `UntidyModel.v` ufmm_run; invariant `UFMMStruct.MI` | by invariant over the loop for any arithmetic (bag of the queue = narrow cells + sources still queued; frozen = accepted); refutation for adjacent free sources by computation with doubles |
| C66 | the same with the reals; `UFMMX.v` | buckets as time slots (`UntidyX.QI`), every accepted cell within one bucket of the minimum, error accumulates by at most one bucket per accepted cell; comparison with the exact solution of C52; refutation for slow cells by computation with doubles |
| C67 | `fmm_heur` in `FMMModel.v`; table of C24 | invariant `SFMMStruct.BI` over the whole run (any bag-like narrow band) |
| C68 | `fmm_run` over `HeapRef.StdHeap` (libstdc++ binary heap, duplicates) | `SFMMStruct.v`: invariant + lexicographic measure (untouched cells, times in the well-founded improvement order, queue length) |
| C69 | `HeapRef.StdHeap` | `BagHeap.v`: hole invariant of __push_heap/__adjust_heap |
| C70 | `DaryModel.v`: FMDaryHeap = boost d_ary_heap (arity 2, mutable) with handle table | `DaryHeap.v`: hole invariant of siftup/siftdown, node identities for handles; instances `DaryLaws`, `DaryBag` discharge the heap hypotheses of C15-C19, C34 for the default heap |
| C71 | FIM ends: Level.v/FIMTerm.v, a well-founded measure on the values below a bound (each relaxation depends only on values at least gamma lower), passes that change nothing leave the list empty by a path argument. Prop_FIMTerm.v | proof |
| C72-C74 | `PlotModel.v`: gridplotter.hpp and gridpoints.hpp over CImg images as width, height, channels and data vector with unchecked writes; mouse events as a list | `Prop_Plot.v`: injectivity of the pixel offset, fold over the pixels, composition with C43 and C42 |
| C75 | `FibModel.v`: FMFibHeap = boost fibonacci_heap (trees, marks, size counters, top_element, consolidate, cut, cascading_cut) with handle table | `FibHeap.v`: zippers for handles, permutation by counting, heap order and minimal root under key changes; instances `FibLaws`, `FibBag` |
| C76-C78 | the F64 instance of the model (Flocq binary64, round to nearest even) of Eikonal, FMM, FSM, LSM, DDQM | `FloatOps/FloatEik/FloatErr/FloatUpd.v`: forward error of the n-dimensional root computed in doubles, including NaN/overflow exclusion; `FloatAbs.v`: a-priori bound by rank, never early, fixed points never late; `FloatSweep.v`, `FloatFMM.v`: invariants of the code, Dijkstra argument with relative errors; `Prop_Float.v` |
| C79, C80 | `FMMModel.v` with a strategy; `FM2Model.v`: FM2* (`fm2star_setPoints`, `fm2star_setup`, `fm2star_compute`) | `StarX.v`: marked cells have finite times and heuristic values are distances, for every order of extraction; `Prop_FM2Star.v` |
| C81 | FMM family over BagLaws, UFMM, GMM in F64 | FloatEv: an update that beats the old time keeps `FSup` (times bounded by the rank) and the lower barrier (1-e)·exact ≤ t; every solver that only writes better times keeps both |
| C82 | FSM, LSM, DDQM, FIM, GMM runs on arbitrary grid contents, any arithmetic | Safe.v: `safe r P` (r is Ok with P or still running) with rules for bind and folds; each run is safe when points are in the grid |
| C83 | solver objects of SolverModel behind a common `api` record; histories as lists of `request` | invariant `idle` (object as after reset, grid = clean map) kept by every request; the answer from `idle` equals a fresh object's; C38 + C82 + run_doubles for absence of faults |
| C84 | ddqm_run with its counters and thresholds | invariant of a round (insertions = taken - start + queue length); the specification computes the rule from queue lengths |
| C85 | FM2Model at doubles, any heap with HeapLaws | FloatFMM.run_F for the first wave, Fin_div/rnd for the normalisation, exact solution >= flo/n at free cells for the floor, HeapLaws of the emptied heap (with_empty) and C78 for the second wave |
| C86 | HandleModel.v: every heap policy guarded by the number of slots of handles_; solver object with that number (setMaxSize at setup, emptied by clear/reset) | exact simulation when every cell has a slot; otherwise the guarded run equals the plain one and writes no time beyond the table, or is UB; induction over request histories |
| C87 | SolverModel.v objects of FSM, LSM, DDQM, FIM, GMM with the lists and queues an earlier run left (`ddqm_resume`, `fim_resume`, `gmm_resume`); `call`, `perform`, `calls_ok`, `survives` in Prop_Calls.v | Invariant over the call sequence (grid shape, points in range, leftover list entries in range, sweep direction valid), each compute by the safety logic of Safe.v; negative example for a smaller map |
| C88 | api records of Prop_History, perform/Compute of Prop_Calls, object models | a compute() after a complete one: invariant 'no neighbour of an initial point is left to do' through the first run (FMM: bag_run/bag_done; FIM, GMM: monotone states; UFMM: every waiting cell is in the bucket it was told, the queue counts at least what it holds, so that its end means no free neighbour of an accepted cell is left, Prop_RepeatUFMM; FSM: the last sweep changed nothing), then the second run is computed |
| C89 | api records, object models | FIM: one pass does not depend on the goal, so the loops compose; seeding again is the identity. FSM: one sweep does not depend on the goal; a last quiet sweep makes the extra sweep of the second call a no-op |
| C90 | F64 update, Evolve's elementary steps | sign lemmas for Bplus/Bmult/Bdiv/Bsqrt incl. overflow and NaN; invariant over the elementary steps; FSM/LSM/DDQM write only better times, none is better than 0 |
| C91 | fmmt_obj (FMM object with handle table) and the calls of C87, any heap with BagLaws | band_ok (narrow cells are stored, stored indices are cells) preserved by init, neighbour, step, loop from any leftover; object invariant finv by induction over the call sequence |
| C92 | FIM over F64 and XR, two 2x2 maps | the state after a pass recurs (checked by the kernel on booleans), hence no fuel suffices; general lemma on a two-cycle; C71 for the exact contrast |
| C93 | UFMM and the untidy queue, XR; F64 for the witness | as C66 with one-sided slots: a queued time is never before its bucket; every time at most F * accepted cells |
| C94 | `ScriptModel.v`: parseGrid.m (words of a text, arrays in column-major order, reshape, transpose) on the writers of `IOModel.v` | the words of the file, then position arithmetic; transposition by coordinates |
| C95 | saveGridToFile.m with size() dropping trailing ones, loadMapFromText | the loader depends on the words of the file only; composition with C94 |
| C96 | parsepath.m, parsepathvel.m, idx2coord.m | grouping of the words; coordinates as in C01 |
| C97 | parseBenchmarkLog.m on the log of `BenchModel.v` | fields of the log, positions of the runs |
| C98 | `CfgModel.v`: the program fm_benchmark from its arguments to its files (boost program_options as a list of options, number conversions as parameters) | options by membership in the list; C45/C97 for the run and the log; start and goal by C01 |
| C99 | `CfgModel.v`, `BenchModel.v`, solvers on doubles | per solver: C38 for the set up, C24 for the heuristics, C15/C68/C32 for the loop; the runs by the repeatability of C45; the configuration by the converse of C98 |
| C100 | `ExampleModel.v`: the loop over solvers as a fold on the shared grid | every run leaves a grid that cleans to the one it started from (frame, C20), and setEnvironment cleans; setup then compute = compute by cases on the class; ends on doubles by C15/C32/C35 |
| C101 | `exact_solution` of two maps compared (ExactMore.v) | the solution of the harder map is a super-solution of the easier one, comparison principle; then C52/C53 (exact) and C76/C77 (doubles) |
| C102 | `symmetry`: mirror images and exchanges of axes on coordinates | the image of the exact solution solves the image problem (a permutation of the dimensions, minima permuted, the sum of squares is symmetric), uniqueness, then C52/C77 |
| C103 | spacing and velocities multiplied | the equation is homogeneous: c*X solves the problem with costs c*f, uniqueness, then C52/C77 |
| C104 | `route`, `sqdist` in ExactMore.v | routes: one step costs at most the cell's cost, induction; straight line: fmin*distance is a sub-solution from one point (Cauchy-Schwarz per cell); triangle: min(Xa, t1+Xb) is a super-solution |
| C105 | `slower_by`, `slower_by64` in Prop_Local.v; ExactLocal.v | exact_stable: k times the exact solution is the exact solution of k times the costs, then monotonicity (C101); solvers are close to it (C52, C77) |
| C106 | `same_but`, `same_but64` in Prop_Local.v; ExactLocal.v | exact_causal: the exact solution cut off at t0 is a super-solution of the changed map (upwind sums do not see later neighbours), the other direction is monotonicity |
| C107 | `in_block`, `manhattan` in ExactLocal.v | upper bound by a staircase route inside the block (C104), lower bound by the straight line (C104); on an axis both are equal |
| C108 | `downhill` (a way from neighbour to neighbour with strictly decreasing times), `root_dim`. `ExactPlace.exact_descent`: in the exact solution one of the minima entering the equation at a cell lies below the cell's value by f/sqrt n, since the sum of the squares is f^2 over at most n terms; carried to the solvers' results by C52/C53 and, in doubles, C77/C81. Induction on the number of earlier cells. |
| C109 | `place` (an offset in every dimension, dropping to one layer in further dimensions), `fits`, `walled`. The exact solution of the large map restricted to the place solves the small map's equation (a bordering obstacle contributes no minimum, a dimension of the slab contributes none), so uniqueness gives equality (`exact_placed`); C52 and C77/C81 carry it to the results. |
| C110 | `same_points` (same elements, repeats allowed). FSM/LSM: the initial writes of two points commute and one repeated is idempotent (`loop_same`), so the whole runs are equal. Other solvers: both runs are close to the one exact solution, which depends on the set only (`exact_points`). |
| C111 | `all_at_zero`, `neighbours` (two free adjacent cells of the list). GMM: a processed point is FROZEN with value 0 and no step of the run writes a frozen cell (no hypothesis at all). FSM/LSM/DDQM: the source clause of the relaxation invariant (`Sup`), and C90 in doubles. FMM family: invariant over the neighbour loop: for an accepted free cell, every free neighbour has a non-zero value, or is accepted and then the cell itself has one; every value written is a solution of the update equation, hence positive. FIM: the later point is marked by the earlier one, hence in the first pass's list, and is overwritten by a solution. UFMM: a run in doubles with no result. |
| C112 | Program `test_fm2` (ExampleModel, examples/test_fm2.cpp) built from the models of the console, loadMapFromImg, FM2/FM2*, computePath and the plotter. Loading resizes, so that only the leaf size of the old grid matters, and no turn changes it: each turn equals the planner alone. Start/goal and obstacle refusals from C41 and sanityChecks; answers composed from C40, C80 (exact) and C85 (doubles); `C112_pictures` gives the hypotheses from the pixels. |
| C113 | `Benchmark::run` with the `reset` of each solver class (BenchModel) and the program `test_fm_benchmark` (ExampleModel). The map a solver starts on is the clean one or its copy with every cell frozen (after LSM's closing reset); `manners` says what each class does from both, for each of the seven solver classes: LSM and DDQM give the same result from either (both freeze all cells before they start), the others recover at the next reset because `clean` restores every cell they could have changed. Induction over runs and over solvers; the program by instantiation, its DDQM steps by Flocq exactness of the sum of ones. |
| C52-C54 | all solvers as sequences of elementary grid steps (`Evolve.v`) | Dijkstra-like construction, comparison principle, induction over steps |

No property has been found inexpressible.  (Statuses: see MANIFEST.json.)

## 4. Trusted base

* Coq's kernel (coqc 8.16.1).  No axioms, parameters, plugins or switched-off checks of our own.
* The axioms `Print Assumptions` lists.  Only four occur, all of the standard library:
  `ClassicalDedekindReals.sig_forall_dec`, `ClassicalDedekindReals.sig_not_dec`,
  `FunctionalExtensionality.functional_extensionality_dep` (the real numbers) and
  `Classical_Prop.classic` (used by Flocq).  `ASSUMPTIONS.md` lists them for each theorem
  (produced by `tools/assumptions.py`).
* The faithfulness of the reading of the C++ source and of boost/libstdc++/CImg as described in sections 1 and 2.

## 5. Testing the theorems against wrong programs

`seeded/LOG.jsonl` records every deliberate edit of the model in a scratch copy, the
claim it breaks, the theorems that failed, and the theorems tightened because of it.

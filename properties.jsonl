{"id": "C01", "title": "Index/coordinate bijection", "statement": "On a grid with at least two dimensions whose cell count fits in 32 bits, idx2coord and coord2idx are inverse bijections between the indices 0..size()-1 and the coordinate tuples inside the grid.", "quantifier": "every number of dimensions >= 2, every list of dimension sizes with product < 2^32, every index and every coordinate tuple", "why_tests_cant": "the space of shapes and indices is unbounded; a test visits a few shapes only", "anchors": ["include/fast_methods/ndgridmap/ndgridmap.hpp: idx2coord, coord2idx, resize"]}
{"id": "C02", "title": "Neighbour enumeration is exact", "statement": "getNeighbors(i) returns, without repetition and in the order of dimensions, exactly the indices of the in-grid cells whose coordinates differ from those of i by one in exactly one dimension. This holds whenever twice the cell count fits in 32 bits; beyond that limit the unsigned wrap-around of idx-d can report a cell that is not a neighbour (C04).", "quantifier": "every shape with 2*size() <= 2^32 and every cell", "why_tests_cant": "boundary cells of every shape and dimension count have to be covered at once", "anchors": ["include/fast_methods/ndgridmap/ndgridmap.hpp: getNeighbors, getNeighborsInDim"]}
{"id": "C03", "title": "Neighbourhood is symmetric and irreflexive", "statement": "j is in getNeighbors(i) if and only if i is in getNeighbors(j), and i is never in getNeighbors(i); at most 2*ndims neighbours are written, so the fixed neighbour buffer is never overrun.", "quantifier": "every shape with 2*size() <= 2^32 and every pair of cells", "why_tests_cant": "holds for all pairs of cells of all shapes", "anchors": ["include/fast_methods/ndgridmap/ndgridmap.hpp: getNeighbors"]}
{"id": "C04", "title": "Neighbour wrap-around on huge grids", "statement": "The neighbour test is not correct for every grid whose size fits an unsigned int: there is a grid with size() < 2^32 in which getNeighbors reports an index that is not a grid neighbour (idx-d_[dim-1] wraps modulo 2^32 and the slice comparison accepts it).", "quantifier": "existential over shapes with size() < 2^32", "why_tests_cant": "the failing grid has more than 2^31 cells and can not be allocated in a test", "anchors": ["include/fast_methods/ndgridmap/ndgridmap.hpp: getNeighborsInDim"]}
{"id": "C05", "title": "Per-dimension minimum", "statement": "getMinValueInDim(i,d) is the minimum of the values of the one or two grid neighbours of i along d, whenever dimension d has size >= 2. When dimension d has size 1 the call reads the neighbour buffer left over by an earlier call: its result depends on the call history, not on the grid.", "quantifier": "every shape, cell, dimension, cell contents and previous buffer contents", "why_tests_cant": "ranges over every grid content and every call history", "anchors": ["include/fast_methods/ndgridmap/ndgridmap.hpp: getMinValueInDim, n_"]}
{"id": "C06", "title": "Resize establishes a fresh grid", "statement": "After resize the grid holds size() cells, size() is the product of the dimension sizes, every cell is free, OPEN, with infinite value, and cell i has index i; the old contents do not matter. If the product does not fit in 32 bits size() silently wraps (a 65536x65536 grid has size 0).", "quantifier": "every shape and every previous grid state", "why_tests_cant": "all shapes and all previous states; overflow needs 2^32 cells", "anchors": ["include/fast_methods/ndgridmap/ndgridmap.hpp: resize", "include/fast_methods/ndgridmap/fmcell.h: FMCell()"]}
{"id": "C07", "title": "Clean restores the cells but not the map", "statement": "clean() on a grid flagged dirty makes every cell OPEN with infinite value, zero heuristic and bucket 0, and leaves velocities, indices, shape, leaf size and the obstacle list untouched; on a grid flagged clean it changes nothing, whatever the cells contain.", "quantifier": "every grid state", "why_tests_cant": "every reachable grid state", "anchors": ["include/fast_methods/ndgridmap/ndgridmap.hpp: clean, isClean, setClean", "src/ndgridmap/fmcell.cpp: setDefault"]}
{"id": "C08", "title": "Grid aggregates", "statement": "getMaxValue returns the largest finite value (0 if there is none above 0); getMaxSpeed returns the largest velocity (0 if none above 0); both are attained or 0 and bound every cell. getAvgSpeed is the sum of the velocities of the free cells over their number.", "quantifier": "every grid content", "why_tests_cant": "every grid content of every size", "anchors": ["include/fast_methods/ndgridmap/ndgridmap.hpp: getMaxValue, getMaxSpeed, getAvgSpeed"]}
{"id": "C09", "title": "Clear leaves the size behind", "statement": "clear() empties the grid's cells but size(), getDimSizes and getNeighbors keep answering for the old shape: any getCell after it with an index below size() is out of bounds.", "quantifier": "every grid", "why_tests_cant": "for every grid; the access is undefined behaviour, so a test cannot observe it reliably", "anchors": ["include/fast_methods/ndgridmap/ndgridmap.hpp: clear, size"]}
{"id": "C10", "title": "The local update solves the upwind equation", "statement": "In exact arithmetic the value u returned by solveEikonal for a free cell with at least one lower finite neighbour satisfies the discretised Eikonal equation sum_d max(u - m_d, 0)^2 >= (h/v)^2 > sum_d max(u - M - m_d, 0)^2, where m_d are the per-dimension minima used and M is COMP_MARGIN: it is within COMP_MARGIN of the unique root.", "quantifier": "every number of dimensions, every list of neighbour minima, every spacing h>0 and velocity v>0", "why_tests_cant": "real-valued inputs in any dimension", "anchors": ["include/fast_methods/fm/eikonalsolver.hpp: solveEikonal, solveEikonalNDims"]}
{"id": "C11", "title": "The local update is causal", "statement": "In exact arithmetic solveEikonal returns a value strictly larger than every neighbour value it used, and the discriminant is non-negative whenever it is evaluated, so the 'infinity' escape is never taken.", "quantifier": "every number of dimensions and all real inputs", "why_tests_cant": "real-valued inputs in any dimension", "anchors": ["include/fast_methods/fm/eikonalsolver.hpp: solveEikonalNDims"]}
{"id": "C12", "title": "Infinite update means no upwind neighbour", "statement": "solveEikonal returns infinity exactly when no dimension offers a finite neighbour value strictly lower than the cell's own time.", "quantifier": "every grid with free cell of positive velocity, exact arithmetic", "why_tests_cant": "every grid content", "anchors": ["include/fast_methods/fm/eikonalsolver.hpp: solveEikonal"]}
{"id": "C13", "title": "Causality in floating point", "statement": "In IEEE double precision causality fails: there are finite neighbour times and a positive slowness for which solveEikonal returns a value lower than a neighbour value it used (cancellation in the discriminant). With a single usable dimension it does hold: the result is never lower than the neighbour value.", "quantifier": "every binary64 neighbour value and slowness (positive part); existential (negative part)", "why_tests_cant": "2^64 inputs per argument", "anchors": ["include/fast_methods/fm/eikonalsolver.hpp: solveEikonalNDims"]}
{"id": "C14", "title": "The local update ignores the order of dimensions", "statement": "solveEikonal depends only on the multiset of per-dimension minima: permuting the dimensions does not change the result.", "quantifier": "every list of minima and every permutation", "why_tests_cant": "all permutations of all inputs", "anchors": ["include/fast_methods/fm/eikonalsolver.hpp: solveEikonal (std::sort)"]}
{"id": "C15", "title": "FMM terminates and never leaves the grid", "statement": "For every map, every set of distinct in-range initial points such that no free initial point is a neighbour of another initial point, and every goal, FMM::compute terminates after at most size() heap extractions without any out-of-range cell access and without using a stale heap handle, for every correct heap implementation and every tie-breaking rule. With one initial point, or initial points that are all obstacles (as FM2 uses it), this holds for every arithmetic including IEEE doubles and every heuristic. With arbitrary in-range initial points (adjacent or repeated ones included), every heuristic and arbitrary velocities, FMM::compute terminates with doubles and with exact numbers.", "quantifier": "every shape with all dimensions >= 2, every velocity map, init set and goal, every lawful heap; exact arithmetic for general separated init sets, every arithmetic (exact or IEEE) for one initial point or obstacle initial points", "why_tests_cant": "termination and memory safety over all maps", "anchors": ["include/fast_methods/fm/fmm.hpp: computeInternal", "include/fast_methods/datastructures/fmdaryheap.hpp", "include/fast_methods/datastructures/fmfibheap.hpp"]}
{"id": "C16", "title": "FMM leaves the sources at time zero", "statement": "After FMM::compute every initial point has arrival time 0, provided no free initial point is a neighbour of another initial point (exact arithmetic), or there is a single initial point or the point is an obstacle (any arithmetic). The proviso is needed: with two adjacent free initial points one of them ends with a positive time, because initial points stay OPEN while queued and are recomputed from their neighbours.", "quantifier": "every map and init set (positive part); existential (negative part)", "why_tests_cant": "every map and source set", "anchors": ["include/fast_methods/fm/fmm.hpp: computeInternal (lines 101-141)"]}
{"id": "C17", "title": "FMM reaches exactly the connected free cells", "statement": "After a full FMM run (no goal) a cell has a finite arrival time if and only if it is an initial point or a free cell connected to one by a path of free neighbouring cells (exact arithmetic). For every arithmetic, IEEE doubles included, the cells in state FROZEN after a full run from one initial point (or from obstacle initial points, as FM2 does) are exactly those cells and every other cell is OPEN; a run with a goal freezes the goal if and only if it is connected. With doubles and arbitrary in-range initial points, heuristic and velocities the FROZEN cells after a full run are exactly those cells.", "quantifier": "every map, init set, heap, heuristic; exact arithmetic for times, every arithmetic for states", "why_tests_cant": "every map; connectivity is a global property", "anchors": ["include/fast_methods/fm/fmm.hpp: computeInternal"]}
{"id": "C18", "title": "FMM solves the discrete Eikonal equation", "statement": "After a full FMM run, in exact arithmetic, every reached free cell other than the sources satisfies the upwind difference equation with its neighbours' final times, within 2*COMP_MARGIN.", "quantifier": "every map with positive spacing, every init set without adjacent sources", "why_tests_cant": "global correctness on every map", "anchors": ["include/fast_methods/fm/fmm.hpp: computeInternal", "include/fast_methods/fm/eikonalsolver.hpp: solveEikonal"]}
{"id": "C19", "title": "FMM accepts cells in order of arrival time", "statement": "In exact arithmetic the cells leave the narrow band in non-decreasing order of arrival time, and a cell's time does not change after it left the narrow band.", "quantifier": "every map, init set and lawful heap", "why_tests_cant": "holds for every execution step", "anchors": ["include/fast_methods/fm/fmm.hpp: computeInternal"]}
{"id": "C20", "title": "Solvers do not touch the map", "statement": "compute() of FMM, FSM, LSM, DDQM, FIM, GMM and UFMM changes only arrival times, states, heuristics and buckets: shape, leaf size, velocities, indices and obstacle list are unchanged, and an occupied cell that is not an initial point keeps its arrival time.", "quantifier": "every map, init set, goal and arithmetic", "why_tests_cant": "frame property over every execution", "anchors": ["include/fast_methods/fm/fmm.hpp: computeInternal", "include/fast_methods/fm/fsm.hpp", "include/fast_methods/fm/lsm.hpp", "include/fast_methods/fm/ddqm.hpp", "include/fast_methods/fm/fim.hpp", "include/fast_methods/fm/gmm.hpp", "include/fast_methods/fm/ufmm.hpp"]}
{"id": "C21", "title": "Each cell is accepted once", "statement": "During one FMM run every cell is extracted from the heap at most once, and the heap never contains the same cell twice.", "quantifier": "every state of every execution, every map and init set in which no free initial point is next to another initial point (exact arithmetic), or one/obstacle initial points (any arithmetic)", "why_tests_cant": "every execution", "anchors": ["include/fast_methods/fm/fmm.hpp: computeInternal"]}
{"id": "C22", "title": "Stopping at the goal does not change the answer", "statement": "Running FMM with a goal (no heuristic) performs a prefix of the run without goal: the goal cell and every cell accepted before it end with exactly the arrival time of the full run.", "quantifier": "every map, init set and goal", "why_tests_cant": "compares two executions on every map", "anchors": ["include/fast_methods/fm/fmm.hpp: computeInternal"]}
{"id": "C23", "title": "FMM* does not preserve the arrival times", "statement": "With the TIME or DISTANCE heuristic the goal's arrival time can differ from the one plain FMM computes: the heuristic measures distance in cells and local velocity, so it is not a lower bound of the remaining time.", "quantifier": "existential over maps", "why_tests_cant": "requires finding a map for which the heuristic is inadmissible", "anchors": ["include/fast_methods/fm/fmm.hpp: computeInternal, setHeuristics, getPrecomputedDistance", "include/fast_methods/fm/fmmstar.hpp"]}
{"id": "C24", "title": "Heuristic distance table", "statement": "getPrecomputedDistance(i) is the Euclidean distance, in cells, between i and the goal (in exact arithmetic, as long as squared coordinates fit in 32 bits). The table is written through operator[] on a vector that was only reserved, never sized, and it is kept when the solver is given another grid, so a look-up for a larger or differently shaped grid reads the wrong entry or beyond the table.", "quantifier": "every shape, cell and goal (positive); existential (negative)", "why_tests_cant": "all shapes; stale-table behaviour needs a particular call history", "anchors": ["include/fast_methods/fm/fmm.hpp: precomputeDistances, getPrecomputedDistance, clear, reset"]}
{"id": "C25", "title": "Reset makes a solver reusable", "statement": "For FMM, FSM, FIM, GMM and UFMM: setEnvironment, setInitialAndGoalPoints, compute, reset, compute leaves the same grid as a single compute on a fresh solver. For DDQM this fails for the threshold: reset() recomputes it as 1.5*speed*leafsize where setEnvironment uses 1.5*leafsize/speed.", "quantifier": "every map, init set and goal", "why_tests_cant": "all call histories on all maps", "anchors": ["include/fast_methods/fm/solver.hpp: reset, compute", "include/fast_methods/fm/fmm.hpp: reset", "include/fast_methods/fm/fsm.hpp: reset", "include/fast_methods/fm/ddqm.hpp: reset"]}
{"id": "C26", "title": "LSM poisons the grid for the next solver", "statement": "LSM::reset marks every cell FROZEN on a grid that is then flagged clean. A solver of a different kind started afterwards on the same grid finds it 'clean' and computes nothing: FMM after LSM leaves every cell except the sources at infinity. This is what Benchmark::run does when LSM precedes FMM.", "quantifier": "every map and init set", "why_tests_cant": "needs a specific sequence of solvers on one grid", "anchors": ["include/fast_methods/fm/lsm.hpp: reset", "include/fast_methods/ndgridmap/ndgridmap.hpp: clean", "include/fast_methods/benchmark/benchmark.hpp: run"]}
{"id": "C27", "title": "SFMM's queue can return a non-minimal cell", "statement": "With FMPriorityQueue::increase (push again, key mutated in place) a cell whose time improves is stored a second time, popMinIdx removes one copy only, and the heap order is broken: there is a reachable queue state in which popMinIdx returns a cell whose arrival time is not minimal, and SFMM can end with arrival times other than FMM's.", "quantifier": "existential over maps/histories; binary heap of libstdc++", "why_tests_cant": "needs a map that triggers an in-place key change of an inner heap node", "anchors": ["include/fast_methods/datastructures/fmpriorityqueue.hpp: increase, popMinIdx", "include/fast_methods/fm/sfmm.hpp"]}
{"id": "C28", "title": "The untidy queue loses no element and is out of order by less than a bucket", "statement": "Every element pushed into the untidy queue is stored in exactly the bucket that push returned, size() equals the number of stored elements, increase_priority and the bucket shift performed by top()/pop() never lose or duplicate an element, and pop removes the element top returned. In exact arithmetic, as long as the times given lie in [origin, origin + increment), push and increase_priority succeed and top returns an element whose time is less than increment/buckets above every stored time. Below the origin the conversion of a negative double to unsigned is undefined and the intended 'i<0' branch is dead code; times past the window share the last bucket and come back out of order by any amount.", "quantifier": "every sequence of queue operations", "why_tests_cant": "all operation sequences", "anchors": ["include/fast_methods/thirdparty/untidy_queue.hpp: push, pop, top, increase_priority", "include/fast_methods/datastructures/fmuntidyqueue.hpp"]}
{"id": "C29", "title": "Every sweep visits every cell once", "statement": "One call of recursiveIteration with any sweep direction calls solveForIdx at most once per cell, exactly for the free cells, and never outside the grid, in the lexicographic order of the current directions.", "quantifier": "every shape with size() < 2^31 and each of the 2^n directions", "why_tests_cant": "all shapes and directions", "anchors": ["include/fast_methods/fm/fsm.hpp: recursiveIteration, setSweep"]}
{"id": "C30", "title": "Sweeps alternate through all directions", "statement": "Any 2^ndims consecutive calls of setSweep produce every combination of directions exactly once, and the sequence is periodic with period 2^ndims.", "quantifier": "every number of dimensions", "why_tests_cant": "unbounded in the number of dimensions", "anchors": ["include/fast_methods/fm/fsm.hpp: setSweep, initializeSweepArrays"]}
{"id": "C31", "title": "FSM reaches a solution of the discrete equation", "statement": "When FSM stops without goal and before maxSweeps, then in exact arithmetic sources have time 0, every reached free cell satisfies the upwind equation within 2*COMP_MARGIN and unreached cells have no finite free neighbour. Arrival times never increase during the run.", "quantifier": "every map and init set", "why_tests_cant": "fixpoint property on every map", "anchors": ["include/fast_methods/fm/fsm.hpp: computeInternal, solveForIdx"]}
{"id": "C32", "title": "FSM and LSM terminate", "statement": "FSM and LSM stop after finitely many sweeps on every map, in exact arithmetic and in IEEE double precision, even with the default (practically unlimited) maxSweeps; and they never perform more than maxSweeps sweeps.", "quantifier": "every map, init set, goal", "why_tests_cant": "termination on all maps", "anchors": ["include/fast_methods/fm/fsm.hpp: computeInternal", "include/fast_methods/fm/lsm.hpp: computeInternal"]}
{"id": "C33", "title": "Locking does not change the LSM result", "statement": "When LSM stops without goal and before maxSweeps its final map satisfies the same equation as FSM's: cells skipped because they were locked are already within 2*COMP_MARGIN of their update.", "quantifier": "every map and init set, exact arithmetic", "why_tests_cant": "needs an invariant over all executions", "anchors": ["include/fast_methods/fm/lsm.hpp: solveForIdx"]}
{"id": "C34", "title": "Solvers agree", "statement": "In exact arithmetic FMM, FSM, LSM and DDQM compute the same arrival times on every map up to 2*COMP_MARGIN*size(), and reach exactly the same cells. FSM, LSM and DDQM agree for all initial points; FMM agrees with them when no free initial point is next to another initial point, and this proviso is needed: with two neighbouring initial points FMM reports a time at one of them that the other three do not.", "quantifier": "every map and every set of initial points (FMM: no free initial point next to another one); existential for the disagreement", "why_tests_cant": "compares executions of different algorithms on every map", "anchors": ["include/fast_methods/fm/fmm.hpp", "include/fast_methods/fm/fsm.hpp", "include/fast_methods/fm/lsm.hpp", "include/fast_methods/fm/ddqm.hpp"]}
{"id": "C35", "title": "DDQM terminates with a solution", "statement": "DDQM terminates on every map and its result satisfies the upwind equation within 2*COMP_MARGIN, whatever the threshold sequence.", "quantifier": "every map, init set, threshold", "why_tests_cant": "all executions", "anchors": ["include/fast_methods/fm/ddqm.hpp: computeInternal"]}
{"id": "C36", "title": "FIM list handling", "statement": "Every FIM run that empties its active list decrements a begin() iterator (undefined behaviour in the C++ standard; on a circular list it wraps to end()). Under the circular-list reading no arrival time below the true solution is ever produced and no cell is listed twice.", "quantifier": "every map and init set", "why_tests_cant": "undefined behaviour cannot be observed by a test", "anchors": ["include/fast_methods/fm/fim.hpp: computeInternal"]}
{"id": "C37", "title": "GMM may never stop", "statement": "GMM with step 0 (or a step absorbed by rounding) never terminates although cells remain to be accepted: the group threshold does not advance. The step derived from the first grid is kept for every later grid.", "quantifier": "existential over configurations", "why_tests_cant": "non-termination cannot be observed in finite time", "anchors": ["include/fast_methods/fm/gmm.hpp: setup, computeInternal"]}
{"id": "C38", "title": "Sanity checks decide as documented", "statement": "setup() exits with status 1 exactly when: the grid is missing, not clean, no initial point is set, the only initial point is occupied, the goal is set and occupied, or the goal equals an initial point, tested in this order; otherwise it marks the grid dirty and the solver ready. Occupied initial points are not rejected when there are several, and indices are not range checked.", "quantifier": "every grid state, init list and goal", "why_tests_cant": "decision table over all states", "anchors": ["include/fast_methods/fm/solver.hpp: sanityChecks, setup"]}
{"id": "C39", "title": "Goal sentinel", "statement": "setInitialPoints clears the goal: no cell of a grid with fewer than 2^32 cells is then treated as goal, so the run never stops early.", "quantifier": "every grid and init set", "why_tests_cant": "all grids", "anchors": ["include/fast_methods/fm/solver.hpp: setInitialPoints", "include/fast_methods/fm/fmm.hpp: computeInternal (line 145)"]}
{"id": "C40", "title": "FM2 velocities are normalised", "statement": "After the velocity-map phase of FM2 all velocities of reached cells lie in [0,1], obstacles that are sources have velocity 0, the maximum 1 is attained, and all times are reset. maxDistance is compared with the normalised velocity, so any maxDistance/leafsize >= 1 only rescales and does not saturate at a distance.", "quantifier": "every map with at least two obstacle cells (positive); every map (negative)", "why_tests_cant": "all maps", "anchors": ["include/fast_methods/fm2/fm2.hpp: computeVelocitiesMap"]}
{"id": "C41", "title": "FM2 special cases", "statement": "FM2 on a map with exactly one obstacle cell exits with an error although the map is valid, FM2 without goal starts the second wave from index 2^32-1 (out of range), and after computePath the solver's initial point has been overwritten with the goal, so reset + compute exits with 'start equals goal'.", "quantifier": "every such map", "why_tests_cant": "depends on exact configuration and call history", "anchors": ["include/fast_methods/fm2/fm2.hpp: setup, computeInternal, computePath", "include/fast_methods/gradientdescent/gradientdescent.hpp: apply"]}
{"id": "C42", "title": "Gradient descent: what a returned path is, and when none is returned", "statement": "If path extraction returns, the path starts at the coordinates of the start index, ends at the coordinates of a cell with arrival time 0 (which is written into the start index passed by reference), has as many velocities as points (the start velocity twice, so each velocity belongs to the point before it), and each intermediate step moves at most 'step' in each dimension. On a map whose border is unreached, in exact arithmetic and with step at most 1, extraction never leaves the grid: it returns a path, runs into an undefined computation at a cell next to an unreached cell or on a plateau, or goes on for ever; the last two do happen, also after a correct FMM or FM2 run on a valid map. The auxiliary array d_ is written one element beyond its end for every number of dimensions.", "quantifier": "every grid, start index, step, exact arithmetic", "why_tests_cant": "all grids", "anchors": ["include/fast_methods/gradientdescent/gradientdescent.hpp: apply"]}
{"id": "C43", "title": "Image loading is a vertical flip", "statement": "loadMapFromImg fills each cell exactly once: pixel (x,y) goes to the cell with coordinates (x, height-1-y), and the obstacle list contains exactly the occupied cells, once each.", "quantifier": "every image size and content with fewer than 2^31 pixels", "why_tests_cant": "all image sizes", "anchors": ["include/fast_methods/io/maploader.hpp: loadMapFromImg"]}
{"id": "C44", "title": "Text round trip", "statement": "A grid written with saveVelocities and read back with loadMapFromText has the same shape, leaf size and velocities (as far as the decimal formatting preserves the numbers), index numbering, and an obstacle list with exactly the occupied cells.", "quantifier": "every grid", "why_tests_cant": "all grids", "anchors": ["include/fast_methods/io/gridwriter.hpp: saveVelocities", "include/fast_methods/io/maploader.hpp: loadMapFromText"]}
{"id": "C45", "title": "Benchmark bookkeeping", "statement": "Benchmark::run performs nruns runs per solver, in the order the solvers were added, with consecutive run identifiers starting at 1 and one log line per run; formatted identifiers of different runs are different. With newly made FMM, FSM, FIM, GMM or UFMM solvers every run yields what the solver computes when it is alone on the map, and the saved files (one per run, or one per solver) hold exactly those grids; an LSM run spoils the runs of the solvers after it.", "quantifier": "every number and choice of solvers, number of runs, map and points", "why_tests_cant": "all counts", "anchors": ["include/fast_methods/benchmark/benchmark.hpp: run, logRun, formatID"]}
{"id": "C46", "title": "Configuration string splitting", "statement": "BenchmarkCFG::split drops trailing fields: a one-character second field is lost, a parameter of at most two characters yields no field at all (so the solver pointer stays uninitialised), and enough fields can make it loop forever.", "quantifier": "characterisation for every string", "why_tests_cant": "all strings", "anchors": ["include/fast_methods/benchmark/benchmarkcfg.hpp: split, configure"]}
{"id": "C47", "title": "Configuration selects the requested solver", "statement": "Every known solver name configured without parameters creates a solver of that kind. With parameters this fails: 'ddqm' creates an LSM solver, and a star solver with an unknown strategy leaves the solver pointer uninitialised.", "quantifier": "every solver name and parameter list", "why_tests_cant": "all configurations", "anchors": ["include/fast_methods/benchmark/benchmarkcfg.hpp: configure"]}
{"id": "C48", "title": "Command line parsing", "statement": "findArguments returns the first position (>= 1) of the flag or -1. The scalar parsers never read outside argv. The vector parsers do: with the flag missing they read from argv[0], and with the flag last they dereference argv[argc].", "quantifier": "every argument vector", "why_tests_cant": "all argument vectors; out-of-bounds reads are undefined", "anchors": ["src/console/console.cpp: findArguments, parseArguments"]}
{"id": "C49", "title": "Robust comparison is a strict order", "statement": "isTimeBetterThan is irreflexive, asymmetric and transitive on all doubles (NaN and infinities included), implies '<', and there is no infinite sequence of doubles each better than the previous one.", "quantifier": "every double", "why_tests_cant": "2^64 values; infinite sequences", "anchors": ["include/fast_methods/utils/utils.h: isTimeBetterThan"]}
{"id": "C50", "title": "Heap comparison is a strict weak order", "statement": "FMCompare orders cells by total value; restricted to cells whose total is not NaN it is a strict weak order, which is what the heap libraries require. With NaN totals incomparability is not transitive.", "quantifier": "every set of cells", "why_tests_cant": "all triples of doubles", "anchors": ["include/fast_methods/datastructures/fmcompare.hpp", "include/fast_methods/ndgridmap/fmcell.h: getTotalValue"]}
{"id": "C51", "title": "Occupancy threshold", "statement": "A cell is an obstacle exactly when its velocity is below COMP_MARGIN; a NaN velocity counts as free; every velocity k/255 with 1<=k<=255 loaded from an image is free and only the value 0 is an obstacle.", "quantifier": "every double", "why_tests_cant": "all doubles", "anchors": ["include/fast_methods/ndgridmap/cell.h: isOccupied"]}
{"id": "C52", "title": "The exact discrete solution exists, is unique and is what the label-setting and sweeping solvers compute", "statement": "For every map and every set of initial points the discretised Eikonal equation (upwind differences, sources at 0, unreached cells only where no source is connected) has exactly one solution. Complete runs of FMM (any heap), FSM, LSM and DDQM never end below it, reach exactly the cells it reaches, and end at most 2*COMP_MARGIN per cell of the grid above it.", "quantifier": "every grid shape, velocity map and set of initial points, in exact arithmetic (FMM's runs: no free initial point next to another one, C34)", "why_tests_cant": "needs all maps, and the reference solution is not computable by a test without trusting another solver", "anchors": ["include/fast_methods/fm/eikonalsolver.hpp: solveEikonal", "include/fast_methods/fm/fmm.hpp: computeInternal", "include/fast_methods/fm/fsm.hpp: computeInternal", "include/fast_methods/fm/lsm.hpp: computeInternal", "include/fast_methods/fm/ddqm.hpp: computeInternal"]}
{"id": "C53", "title": "No solver ever reports a time below the exact solution", "statement": "Whatever the solver (FMM with any heap or heuristic, UFMM, FSM, LSM, DDQM, FIM, GMM), its parameters, its goal and the moment it stops, every finite arrival time it leaves in the grid is at least the exact discrete solution of that cell, and no time is NaN or negative.", "quantifier": "every solver, parameter choice, goal, map and set of initial points, in exact arithmetic", "why_tests_cant": "all executions of all solvers", "anchors": ["include/fast_methods/fm/fmm.hpp", "include/fast_methods/fm/ufmm.hpp", "include/fast_methods/fm/fsm.hpp", "include/fast_methods/fm/lsm.hpp", "include/fast_methods/fm/ddqm.hpp", "include/fast_methods/fm/fim.hpp", "include/fast_methods/fm/gmm.hpp"]}
{"id": "C54", "title": "Only cells connected to an initial point get a time", "statement": "After any solver run on a clean grid every cell whose arrival time is not +infinity is an initial point or is connected to one by a path of free cells; obstacles and enclosed regions keep +infinity.", "quantifier": "every solver, parameters, goal, map, initial points; IEEE doubles and exact arithmetic alike", "why_tests_cant": "all maps and all floating-point behaviours", "anchors": ["include/fast_methods/fm/eikonalsolver.hpp: solveEikonal", "include/fast_methods/ndgridmap/ndgridmap.hpp: getMinValueInDim"]}
{"id": "C55", "title": "FIM is within its tolerance of the exact solution", "statement": "In exact arithmetic, for initial points no free one of which is next to another, every FIM run (any error tolerance e >= 0, any goal) that ends with an empty active list leaves in every cell a time between the exact discrete solution X and X + (2*COMP_MARGIN + e) * number of cells, and leaves infinite exactly the cells X does not reach. (That the list does become empty is not claimed.)", "quantifier": "every map, set of separated initial points, tolerance and number of passes", "why_tests_cant": "all maps and all orders of the active list", "anchors": ["include/fast_methods/fm/fim.hpp: computeInternal"]}
{"id": "C56", "title": "GMM with a positive step ends and reaches exactly the reachable cells", "statement": "In exact arithmetic, for every map, every set of distinct in-range initial points (adjacent or not) and every step > 0, GMM::compute without a goal ends with an empty band; it leaves a finite time in exactly the cells connected to an initial point through free cells, and no time is below the exact discrete solution. With a goal the run also ends, with an empty band or with the goal accepted.", "quantifier": "every map, set of initial points, goal and positive step", "why_tests_cant": "all maps and steps; termination", "anchors": ["include/fast_methods/fm/gmm.hpp: computeInternal"]}
{"id": "C57", "title": "Re-targeting a used solver", "statement": "setEnvironment on a solver that has already computed keeps its 'set up' state: the next compute performs no sanity checks (an input a fresh solver rejects with an error is accepted), and leaves the new map flagged as clean although it has been written, so a following reset() does not erase the times and a further compute mixes the old times with the new ones. (The new map is taken to have no more cells than the old one, or the heap no handle table: otherwise see C86.)", "quantifier": "every heap policy, map, sources, goal and number of steps; witnesses in double arithmetic", "why_tests_cant": "depends on the history of calls on one solver object, over all maps", "anchors": ["include/fast_methods/fm/solver.hpp: setEnvironment, setup, reset", "include/fast_methods/fm/fmm.hpp: setEnvironment, computeInternal, reset", "include/fast_methods/ndgridmap/ndgridmap.hpp: clean"]}
{"id": "C58", "title": "A run without goal disables the heuristic permanently", "statement": "A heuristic FMM solver (FMM*, SFMM*) that computes once without a goal turns its heuristic off for good: every later compute, even with a goal and after reset, is a plain FMM run.", "quantifier": "every heap policy, heuristic, map, sources, goals and histories consisting of a goal-less run, a reset and another run", "why_tests_cant": "depends on the history of calls, over all maps", "anchors": ["include/fast_methods/fm/fmm.hpp: setup, computeInternal", "include/fast_methods/fm/fmmstar.hpp: FMMStar"]}
{"id": "C59", "title": "Missing coordinates in a configuration are filled in silently", "statement": "splitAndCast, used for grid sizes, start and goal, takes the first N comma-separated fields; if there are fewer than N, the last field is used for all missing ones (one number for a 2D point means that number twice) and no error is reported. A field that is not a number (for example the empty one behind a trailing comma) ends the program.", "quantifier": "every non-empty string, every N, every cast function", "why_tests_cant": "all strings and field counts", "anchors": ["include/fast_methods/benchmark/benchmarkcfg.hpp: splitAndCast, configure"]}
{"id": "C60", "title": "Damaged map files are accepted", "statement": "A text map with fewer values than cells is loaded without an error: every missing cell gets the last value that was read. A value that cannot be read (such as the inf written by saveGridValues for unreached cells) turns its cell and every later cell into an obstacle. A file without any value uses an uninitialised variable.", "quantifier": "every header, dimensions, list of value tokens and grid", "why_tests_cant": "all files", "anchors": ["include/fast_methods/io/maploader.hpp: loadMapFromText", "include/fast_methods/io/gridwriter.hpp: saveGridValues"]}
{"id": "C61", "title": "FM2 replaces the user's velocities and reset() does not bring them back", "statement": "After a successful FM2::compute() the occupancies of the user's grid are the computed velocity map, no longer the obstacles the user loaded. reset() clears the times but leaves these velocities, so a second compute() on the same object starts from the computed velocities: it solves the Eikonal problem of the velocity map of the velocity map, and its answer can differ from the first one for the same start and goal. A negative maximum distance other than -1 is not rejected: every cell, obstacles included, then gets velocity 1 and the path problem is solved as if the map were empty.", "quantifier": "every map of the class FM2 accepts, every start and goal, every saturation distance (in particular every negative one), every lawful heap, any sequence compute; reset; compute", "why_tests_cant": "the effect depends on the history of the object and on the sign of a parameter; a test would have to compare every second run with a run on a fresh copy", "anchors": ["include/fast_methods/fm2/fm2.hpp: FM2::computeVelocitiesMap, FM2::reset, FM2::computeInternal", "include/fast_methods/ndgridmap/ndgridmap.hpp: clean"]}
{"id": "C62", "title": "Saved paths, velocities and maps are decodable line by line", "statement": "If numbers print without tabs and newlines, the file written by GridWriter::savePath determines the path: line 1 is the cell size, line 2 the number of dimensions, then one dimension per line, then one line per path point holding its coordinates separated by tabs. savePathVelocity writes the same file with the velocity of the point appended to its line, and requires one velocity per point (with fewer it reads past the end of the vector); the path and velocities returned by a gradient-descent extraction always satisfy this. saveGridValues and saveVelocities write a type line, the same header, and one value per cell in index order.", "quantifier": "every grid, every path and velocity vector of any length, every way of printing numbers that avoids tabs and newlines", "why_tests_cant": "injectivity of the file format and the absence of out-of-bounds reads are statements about all paths and vectors", "anchors": ["include/fast_methods/io/gridwriter.hpp: savePath, savePathVelocity, saveGridValues, saveVelocities", "include/fast_methods/gradientdescent/gradientdescent.hpp: GradientDescent::apply"]}
{"id": "C63", "title": "Points given by coordinates denote the cell at those coordinates", "statement": "setInitialAndGoalPoints(coords, coords) and setInitialPoints(coords) set exactly the indices of the cells whose coordinates were given (idx2coord gives the coordinates back), so that setup() then refuses the problem exactly when the grid is not clean, one of the two cells is an obstacle, or the two coordinate vectors are equal. Coordinates are not checked: an out-of-range first coordinate silently denotes a cell of a later row; and calling the setters before setEnvironment dereferences an uninitialised pointer.", "quantifier": "every grid shape with at least two dimensions and fewer than 2^32 cells, every pair of coordinate vectors", "why_tests_cant": "all shapes and coordinates", "anchors": ["include/fast_methods/fm/solver.hpp: setInitialAndGoalPoints, setInitialPoints (coordinate overloads), sanityChecks", "include/fast_methods/ndgridmap/ndgridmap.hpp: coord2idx, idx2coord"]}
{"id": "C64", "title": "What clear() leaves behind", "statement": "clear() on FSM, LSM and DDQM forgets the points: compute() then refuses to run until points are set again. clear() on FMM-like solvers, FIM and GMM keeps points, goal and the setup flag: after a complete FMM run from a, clear() and a new initial point b connected to a, compute() neither checks nor cleans the grid, sets the time of b to 0 and leaves every other arrival time as the run from a left it (for the heaps with a handle table this takes the handle writes to reach the storage the emptied table still owns; strictly they are undefined behaviour, C86). clear() on UFMM and FM2 frees the queue / inner solver without resetting the pointer: later calls to compute or reset (UFMM), setEnvironment or reset (FM2), a second clear() and the destructor use freed memory; FM2::compute() always exits.", "quantifier": "every map, start points, heap, arithmetic", "why_tests_cant": "depends on the history of the object; memory errors are not observable reliably by a test", "anchors": ["include/fast_methods/fm/solver.hpp: clear", "include/fast_methods/fm/fmm.hpp: clear", "include/fast_methods/fm/fim.hpp: clear", "include/fast_methods/fm/gmm.hpp: clear", "include/fast_methods/fm/ufmm.hpp: clear, ~UFMM", "include/fast_methods/fm2/fm2.hpp: clear, ~FM2"]}
{"id": "C65", "title": "UFMM accepts each connected cell exactly once", "statement": "Whenever a UFMM run from distinct sources inside a reset map returns, no free source being next to another source, each cell was accepted at most once, there are at most as many acceptances as cells, the accepted cells are exactly the cells marked frozen, every accepted cell is a source or is connected to one through free cells, and unless the run stopped at the goal every cell so connected is accepted. (Two free sources next to each other make the run undefined: the second gets the time infinity.)", "quantifier": "for all dimensions, sizes, velocity maps, source sets, goals, bucket counts, increments and arithmetics (doubles and reals), for every run that returns", "why_tests_cant": "the queue is only roughly ordered and cells move between buckets; that no order of insertions and bucket moves loses or repeats a cell is an invariant over all maps and runs", "anchors": ["include/fast_methods/fm/ufmm.hpp: computeInternal", "include/fast_methods/thirdparty/untidy_queue.hpp: push, pop, top, increase_priority", "include/fast_methods/datastructures/fmuntidyqueue.hpp"]}
{"id": "C66", "title": "UFMM error bound", "statement": "With exact arithmetic, on a reset map whose every free cell takes at most (increment - increment/buckets) to cross and with no free source next to another source, UFMM always ends without undefined behaviour; the times of accepted cells are never below the exact discrete solution and at most max(increment/buckets, 2*COMP_MARGIN) per cell of the map above it; and without goal a cell is finite exactly where the exact solution is. If some cell is slower than the increment the error can be as large as that cell's crossing time.", "quantifier": "for all dimensions, sizes, real velocity maps, source sets, goals, bucket counts and increments", "why_tests_cant": "the accuracy claim is about every map and every order in which the untidy queue gives cells back, and compares against the exact discrete solution which tests do not have", "anchors": ["include/fast_methods/fm/ufmm.hpp: computeInternal", "include/fast_methods/thirdparty/untidy_queue.hpp", "include/fast_methods/fm/eikonalsolver.hpp: solveEikonal"]}
{"id": "C67", "title": "Heuristic values left by FMM*/SFMM*", "statement": "After any run of FMM, FMM*, SFMM or SFMM* on a clean map, every accepted and every still queued cell holds the heuristic value of the chosen strategy: 0 without a heuristic, the distance to the goal with DISTANCE, and that distance divided by the velocity of the cell with TIME. In exact arithmetic the distance is the Euclidean distance between the cell coordinates and the goal coordinates, in cells.", "quantifier": "every map, set of initial points (adjacent, repeated or obstacle ones included), goal, strategy, bag-like narrow band; doubles and exact arithmetic", "why_tests_cant": "every map, goal and cell; a wrong value changes only the order in which cells are accepted, which most tests do not observe", "anchors": ["include/fast_methods/fm/fmm.hpp: computeInternal, setHeuristics, getPrecomputedDistance", "include/fast_methods/fm/sfmm.hpp"]}
{"id": "C68", "title": "SFMM terminates and accepts exactly the connected cells", "statement": "Although SFMM's queue stores improved cells again and its order can be broken (C27), SFMM::compute terminates for every map and every in-range initial points (adjacent, repeated or obstacle ones included), every goal and heuristic, with doubles as with exact numbers, never accesses a cell outside the map, stops only with an empty queue or right after accepting the goal, and without a goal the accepted (FROZEN) cells are exactly the initial points and the free cells connected to one of them.", "quantifier": "every shape with all dimensions >= 2, every velocity map, initial points, goal, heuristic; IEEE doubles and exact arithmetic", "why_tests_cant": "termination over all maps with a queue in which one cell can be stored many times", "anchors": ["include/fast_methods/fm/sfmm.hpp", "include/fast_methods/fm/fmm.hpp: computeInternal", "include/fast_methods/datastructures/fmpriorityqueue.hpp"]}
{"id": "C69", "title": "FMPriorityQueue is a correct priority queue while times stay put", "statement": "For every sequence of push, increase and popMinIdx on FMPriorityQueue during which the total values of the stored cells do not change and are not NaN, every popMinIdx returns a stored cell than which no stored cell is smaller and removes exactly one copy of it; nothing is lost or duplicated; popping is possible exactly while something is stored; pushing n cells and popping n times returns them sorted.", "quantifier": "every sequence of operations, every number of cells, every key function without NaN, every arithmetic with the order laws of double", "why_tests_cant": "every interleaving and every heap shape", "anchors": ["include/fast_methods/datastructures/fmpriorityqueue.hpp", "include/fast_methods/datastructures/fmcompare.hpp"]}
{"id": "C70", "title": "FMDaryHeap is a correct mutable priority queue", "statement": "For every history of FMDaryHeap calls in which no stored cell is pushed again, increase is called for a stored cell after its time did not grow, update for a stored cell after any change of its time, and no time is NaN: every call succeeds through a valid handle, the heap holds exactly the pushed cells not yet popped, and popMinIdx returns a stored cell with the smallest current time. When a cell is stored twice (adjacent initial points), its handle becomes stale only after both entries, or the newer one, have been popped; FMM never uses it then, so FMM with FMDaryHeap terminates for every initial points (C15) and satisfies C17 and C18 without any assumption about the heap.", "quantifier": "every history, every number of cells, every time values without NaN, every arithmetic with the order laws of double", "why_tests_cant": "every interleaving of pushes, key changes and pops; handle validity over whole histories", "anchors": ["include/fast_methods/datastructures/fmdaryheap.hpp: push, popMinIdx, increase, update", "include/fast_methods/datastructures/fmcompare.hpp", "include/fast_methods/fm/fmm.hpp: computeInternal"]}
{"id": "C71", "title": "FIM ends on every problem, whatever the tolerance", "statement": "On any grid with at least two cells per dimension and any set of initial points (no two of them next to each other), FIM's compute() ends for every tolerance >= 0 - zero, the constructor's default, included - in exact arithmetic. Without a goal point it ends with no active cell left, and then every free cell connected to an initial point has a time between the exact upwind solution and that solution plus (tolerance + 2 comparison margins) per cell of the grid, and every unconnected cell keeps an infinite time.", "quantifier": "all grids, obstacle maps, velocities, initial points, goals and tolerances >= 0", "why_tests_cant": "termination for every map and tolerance is not observable by finitely many runs: with tolerance 0 a cell only leaves the list when recomputing it gives exactly the same number, and the new time can even be larger than the old one because only neighbours below the cell's own time are used", "anchors": ["include/fast_methods/fm/fim.hpp: FIM::computeInternal", "include/fast_methods/fm/eikonalsolver.hpp: EikonalSolver::solveEikonal"]}
{"id": "C72", "title": "Plots show the right cell at every pixel", "statement": "For every two-dimensional grid, each plotting function draws an image with one pixel per cell in which the pixel in column x of row y (row 0 at the top) shows cell (x, height-1-y): plotMap black exactly for obstacles, plotOccupancyMap the occupancy times 255, plotFMStates 255/127/0 for OPEN/NARROW/FROZEN, plotArrivalTimes a shade between 0 and 255 ordered as the times with 255 for the last cell reached. Loading an image as a map and plotting its occupancy gives the image back.", "quantifier": "all 2D grids with fewer than 2^31 cells, all images, all pixels", "why_tests_cant": "index arithmetic with a flipped axis has to be right for every pair of width and height; a square or symmetric test map hides a mistake", "anchors": ["include/fast_methods/io/gridplotter.hpp: plotMap, plotOccupancyMap, plotArrivalTimes, plotFMStates", "include/fast_methods/io/maploader.hpp: loadMapFromImg"]}
{"id": "C73", "title": "Plotting paths: exactly the cells visited, at most two paths, points inside the grid", "statement": "Plotting a path whose points lie in the grid colours exactly the pixels of the cells its points fall in and leaves every other pixel as in the map; two paths are drawn in different colours. A third non-empty path, or a point above or below the grid, makes the plot write outside the image (undefined behaviour); a point to the right of the grid is silently drawn on the next row. Every path computed by the gradient descent on a map with a border of obstacles can be plotted.", "quantifier": "all 2D grids with fewer than 2^31 cells, all paths, all numbers of paths", "why_tests_cant": "the writes are unchecked, so a test sees neither the out-of-bounds access nor the misplaced pixel unless its data happens to trigger them", "anchors": ["include/fast_methods/io/gridplotter.hpp: plotMapPath, plotOccupancyPath, plotMapPaths, plotArrivalTimesPath", "include/fast_methods/gradientdescent/gradientdescent.hpp: GradientDescent::apply"]}
{"id": "C74", "title": "Selected points are the cells under the clicks", "statement": "selectMapPoints returns, in order, the cells that the picture shows under the first two clicks outside the leftmost column, with or without the flipped y axis; both are cells of the grid. Clicks in column 0 are ignored: the call keeps waiting, and no cell of that column can be selected.", "quantifier": "all 2D grids with fewer than 2^31 cells, all sequences of mouse events", "why_tests_cant": "it ranges over every sequence of mouse events of an interactive window", "anchors": ["include/fast_methods/io/gridpoints.hpp: GridPoints::selectMapPoints"]}
{"id": "C75", "title": "FMFibHeap is a correct mutable priority queue", "statement": "Used legally (a cell is not pushed while it is stored, increase/update are only called for stored cells, increase only after the time went down or stayed, no NaN times), FMFibHeap behaves like an ideal priority queue: every call succeeds, the queue holds exactly the cells pushed and not yet popped, and popMinIdx returns a stored cell with the smallest current time, through all the linking, cutting and cascading cutting of the Fibonacci heap. With a NaN time this is lost: popMinIdx can return a cell although a stored cell has a smaller time. FMM over FMFibHeap terminates, accepts exactly the connected cells and solves the discrete Eikonal equation, with no assumption about the heap.", "quantifier": "all arithmetics satisfying the order laws (IEEE doubles, exact reals), all finite histories of push/increase/update/popMinIdx with arbitrary times; all maps and sources for the FMM part", "why_tests_cant": "The shape of the forest depends on the whole history; a test fixes one history, the claim is about every history and every time assignment.", "anchors": ["include/fast_methods/datastructures/fmfibheap.hpp: FMFibHeap::push, popMinIdx, update, increase", "include/fast_methods/datastructures/fmcompare.hpp: FMCompare", "include/fast_methods/fm/fmm.hpp: FMM::computeInternal"]}
{"id": "C76", "title": "In double arithmetic no solver produces NaN or negative times, or times below the exact ones", "statement": "FMM, FSM, LSM and DDQM, run in IEEE double arithmetic on a map whose spacing and free velocities are ordinary doubles (2^-200 to 2^200) and whose size is within the resolution of doubles (512 n^4 ((N+3) fhi)^2 <= 2^53 flo^2), with any goal and any sweep limit: every arrival time is +infinity or a finite non-negative double, initial points have time 0, and a finite time belongs to a cell that the exact solution of the discretised Eikonal equation (real arithmetic) reaches, and is at least (1 - e) times the exact time with e = 96 n^4 ((Xmax+fhi)/flo)^2 / 2^53.", "quantifier": "all grids (any dimension), all double velocities and spacings in range, all initial points, goals, sweep limits and directions, thresholds, any lawful heap for FMM", "why_tests_cant": "Rounding errors depend on every bit of every input; a test compares one run with a tolerance chosen by hand, the claim bounds the error of every run.", "anchors": ["include/fast_methods/fm/eikonalsolver.hpp: solveEikonal, solveEikonalNDims", "include/fast_methods/fm/fmm.hpp: FMM::computeInternal", "include/fast_methods/fm/fsm.hpp: FSM::computeInternal", "include/fast_methods/fm/lsm.hpp: LSM::computeInternal", "include/fast_methods/fm/ddqm.hpp: DDQM::computeInternal"]}
{"id": "C77", "title": "Complete runs in double arithmetic are accurate", "statement": "Under the conditions of C76, a complete run (no goal, sweep limit not hit) of FMM, FSM, LSM or DDQM in doubles reaches exactly the cells the exact solution reaches, and every time t satisfies (1 - e1) x <= t <= (1 + e2) x for the exact time x, with e1 = 96 n^4 ((Xmax+fhi)/flo)^2/2^53 and e2 = 3 n COMP_MARGIN/flo + 64 n^3 ((2 Xmax+5 fhi)/flo)^2/2^53 (required to be at most 1). Hence any two of the four solvers agree within (e1+e2) x in doubles, and all of them have a complete run.", "quantifier": "all grids, double velocities, spacings, initial points as in C76; all complete runs of the four solvers", "why_tests_cant": "Accuracy over the accumulated roundings of arbitrarily many updates in arbitrary order; tests only compare sample maps.", "anchors": ["include/fast_methods/fm/eikonalsolver.hpp: solveEikonal, solveEikonalNDims", "include/fast_methods/utils/utils.h: COMP_MARGIN, isTimeBetterThan", "include/fast_methods/fm/fmm.hpp", "include/fast_methods/fm/fsm.hpp", "include/fast_methods/fm/lsm.hpp", "include/fast_methods/fm/ddqm.hpp"]}
{"id": "C78", "title": "FMM in doubles: accepted cells and the goal are accurate even when the run stops at the goal", "statement": "Under the conditions of C76, whatever the goal, every cell FMM has accepted (FROZEN) when it stops carries a finite double within (1 - e1) and (1 + e2) times its exact time; if the exact solution reaches the goal, the goal is accepted and has such a time.", "quantifier": "all grids, double velocities, spacings, initial points as in C76; all goals; any lawful heap", "why_tests_cant": "Rounding can make extraction order differ from the exact order of times; the claim must hold for every such order.", "anchors": ["include/fast_methods/fm/fmm.hpp: FMM::computeInternal", "include/fast_methods/fm/eikonalsolver.hpp: solveEikonal"]}
{"id": "C79", "title": "FMM* with any heuristic: which cells get a time, and never too early", "statement": "FMM and FMM* with any strategy and any table of distances: a complete run gives a finite time to exactly the cells connected to an initial point and leaves the others at infinity; a run towards a goal gives the goal a finite time exactly when it is connected, and this time is never below the exact solution. It may be above it: on an empty 3x3 map FMM* returns a later goal time than FMM.", "quantifier": "all grids, spacings, velocities (exact arithmetic), initial points, goals, strategies, tables of distances on which lookups succeed, and lawful heaps", "why_tests_cant": "The heuristic changes the order of extraction arbitrarily; a test sees a few orders only.", "anchors": ["include/fast_methods/fm/fmm.hpp: FMM::computeInternal, FMM::getPrecomputedDistance", "include/fast_methods/fm/fmmstar.hpp: FMMStar"]}
{"id": "C80", "title": "FM2*: setup, what it computes, and its table of distances", "statement": "FM2* accepts what FM2 accepts except that it exits without a goal; setInitialAndGoalPoints before setEnvironment is undefined behaviour; with NOHEUR its results are those of FM2. With any strategy compute() builds FM2's velocity map, runs the second wave from the goal with the Euclidean distance (or time) to the start as heuristic, gives the start a finite time exactly when it is connected to the goal, and no time is below the exact solution over the velocity map. The table of distances belongs to the map present at setInitialAndGoalPoints: on a larger map set later without giving the points again the lookup leaves the table.", "quantifier": "all maps, start and goal cells, strategies, maximum distances, lawful heaps; the setup claims for any arithmetic, the velocity map and times in exact arithmetic", "why_tests_cant": "The claim is about all maps and all orders of calls; connectivity and lower bounds quantify over all paths.", "anchors": ["include/fast_methods/fm2/fm2star.hpp: FM2Star::setInitialAndGoalPoints, setup, computeInternal", "include/fast_methods/fm2/fm2.hpp: FM2::setup, computeVelocitiesMap", "include/fast_methods/fm/fmm.hpp: FMM::setHeuristics, precomputeDistances"]}
{"id": "C81", "title": "In doubles, the solvers that only lower times never report a NaN, a negative, an absurd or an early time", "statement": "Computing in IEEE doubles on a grid whose speeds and cell size are within the resolution bounds: FMM, SFMM, FMM* or SFMM* over any narrow band that keeps its content (all heaps of the library), with any heuristic and with one initial point (or initial points on obstacles only), UFMM with separated initial points and any band, and GMM with one initial point and any step, all end with every cell either at infinity or at a finite time that is not NaN, not negative, at most 9/8 times the largest slowness times the number of cells, and not earlier than the exact solution by more than the relative rounding error bound; initial points are at 0. Without a goal the cells with a finite time after FMM/SFMM/FMM*/SFMM*/UFMM are exactly the free cells connected to an initial point, and with a goal a connected goal has a finite time.", "quantifier": "all grids of at least two dimensions, double speeds, occupancies, initial points, goals, heuristics, narrow bands, UFMM bucket counts and widths, GMM steps, and all runs", "why_tests_cant": "Rounding in sqrt and division accumulates along paths of any length; a test tries finitely many grids and cannot see whether some rounding makes the discriminant negative (NaN), a time decrease below its upwind neighbour or overflow.", "anchors": ["include/fast_methods/fm/fmm.hpp:computeInternal", "include/fast_methods/fm/eikonalsolver.hpp:solveEikonal", "include/fast_methods/fm/ufmm.hpp:computeInternal", "include/fast_methods/fm/gmm.hpp:computeInternal", "include/fast_methods/fm/sfmm.hpp", "include/fast_methods/fm/fmmstar.hpp", "include/fast_methods/utils/utils.h:isTimeBetterThan"]}
{"id": "C82", "title": "FSM, LSM, DDQM, FIM and GMM never leave the grid, whatever it contains", "statement": "FSM, LSM, DDQM, FIM and GMM run on a grid of a supported shape with initial points inside it never access a cell outside the grid and never end in undefined behaviour or exit, whatever the cells contain (leftovers of an interrupted run, NaN, negative or infinite velocities and times, any states), however many initial points there are (repeated, adjacent or occupied), and whatever the goal, tolerance, step, thresholds, sweep limit and sweep directions: the run is still going or has returned a grid of the same shape. The active list of FIM, the group of GMM and both queues of DDQM only hold cells of the grid.", "quantifier": "all arithmetics obeying the number laws (doubles and exact), shapes, cell contents, initial points in the grid, goals, parameters, numbers of steps", "why_tests_cant": "ranges over every content of the map, including states left by earlier runs, and every point of an unbounded run", "anchors": ["include/fast_methods/fm/fsm.hpp FSM::computeInternal", "include/fast_methods/fm/lsm.hpp LSM::computeInternal", "include/fast_methods/fm/ddqm.hpp DDQM::computeInternal", "include/fast_methods/fm/fim.hpp FIM::computeInternal", "include/fast_methods/fm/gmm.hpp GroupMarchingMethod::computeInternal", "include/fast_methods/ndgridmap/ndgridmap.hpp nDGridMap::getNeighbors"]}
{"id": "C83", "title": "The answer of a solver object does not depend on the queries it answered before", "statement": "A solver object serves any history of requests, each either a query (setInitialAndGoalPoints, compute, reset) or a switch to another map (setEnvironment). After every such history the grid a further query computes is the one a newly constructed solver of the same class computes on the map in use: FMM and SFMM with any heap, FIM, UFMM, FSM, LSM, and GMM with a given step; GMM with the default step as long as the map is not changed; FMM* and SFMM* as long as the map is not changed and every query has a goal. No history of queries with points inside the map in use ends in undefined behaviour (FIM, FSM, LSM, GMM with any step, DDQM in every arithmetic; FMM and SFMM in doubles).", "quantifier": "all histories (any length, any points, goals, maps and order of requests), all maps whose clean flag is true to their content, all heaps, step sizes, bucket counts, sweep limits and tolerances", "why_tests_cant": "a history is of unbounded length; a leftover of one query may only show in a particular later one", "anchors": ["include/fast_methods/fm/solver.hpp Solver::reset", "include/fast_methods/fm/solver.hpp Solver::setup", "include/fast_methods/fm/solver.hpp Solver::setEnvironment", "include/fast_methods/fm/fmm.hpp FMM::reset", "include/fast_methods/fm/fim.hpp FIM::reset", "include/fast_methods/fm/ufmm.hpp UFMM::reset", "include/fast_methods/fm/fsm.hpp FSM::reset", "include/fast_methods/fm/lsm.hpp LSM::reset", "include/fast_methods/fm/gmm.hpp GroupMarchingMethod::reset"]}
{"id": "C84", "title": "DDQM: the threshold between the queues follows the share of the cells put in the lower queue", "statement": "A run of DDQM that is not stopped by the goal consists of rounds: each begins with the cells the round before put aside (the first with the free neighbours of the initial points), takes cells from the lower queue until it is empty, and puts some cells aside in the other queue. After every round the step is multiplied by 1.5 when at most 65% of the cells inserted in the round went to the lower queue, halved when at least 75% did (or nothing was inserted), else kept, and the threshold is raised by it. Threshold and step at the end are exactly those this rule gives for the rounds, and the run takes exactly as many queue operations as the rounds. In exact arithmetic a positive step stays positive and the threshold never decreases.", "quantifier": "all arithmetics, grids, initial points, goals, initial thresholds and steps, any number of rounds", "why_tests_cant": "the number and shape of the rounds depend on the map and are unbounded; the rule must hold after each of them", "anchors": ["include/fast_methods/fm/ddqm.hpp DDQM::computeInternal", "include/fast_methods/fm/ddqm.hpp DDQM::increaseThreshold"]}
{"id": "C85", "title": "Fast Marching Square in double precision: velocity map, no lost cells, start time", "statement": "FM2 without saturation (maxDistance = -1), from new objects, in IEEE doubles, on a map whose list of occupied cells holds exactly its obstacles (at least two) and whose cost range is within the resolution of doubles (C76): compute() ends without a fault and without exit; the velocities the grid then holds lie in [0,1], are exactly 0 at the obstacles and exactly 1 somewhere, are at least flo/(2 n fhi N) at every free cell, and are within the error factors of C77 of the quotient of the exact distance-transform time and its maximum; hence no free cell of the map becomes an obstacle by normalisation and no obstacle becomes free. The goal has time exactly 0; the start is accepted exactly when a path of free cells of the ORIGINAL map joins it to the goal; every time is +inf or finite, bounded and never early with respect to the exact solution over the velocity map, and the time of the start is within the errors of C78 of it. For maps small enough for their slowest free cell the velocity map is itself within resolution and that exact solution exists.", "quantifier": "every shape, map of doubles within resolution, pair of distinct free points, heap with the heap laws (d-ary, Fibonacci and reference heaps included), every amount of fuel beyond the number of cells", "why_tests_cant": "The claims bound accumulated rounding error of two waves and a division on every map; a test compares a few maps with a few digits.", "anchors": ["include/fast_methods/fm2/fm2.hpp: computeInternal, computeVelocitiesMap", "include/fast_methods/fm/fmm.hpp: computeInternal", "include/fast_methods/ndgridmap/ndgridmap.hpp: getMaxValue", "include/fast_methods/ndgridmap/cell.h: isOccupied"]}
{"id": "C86", "title": "The handle table of the binary and Fibonacci heaps is large enough in every history of queries, and is overrun after clear() or on a larger map without reset()", "statement": "FMDaryHeap and FMFibHeap keep one handle slot per cell; FMM sizes the table when it sets itself up. For every history of queries (setInitialAndGoalPoints, compute, reset) and map switches (setEnvironment) on one solver, with any heap, heuristic, points, goals and map sizes, no access leaves the table and the answers are those computed without regard to it. A solver that is already set up keeps its table: compute() then either never writes the time of a cell beyond the table or overruns it. In particular compute() overruns the table (undefined behaviour) always after a run followed by clear() and new points, and after a run followed by setEnvironment on a larger map when an initial point, or the wave, lies beyond the cells of the first map.", "quantifier": "all heaps, arithmetics, maps of any shape and size, histories of any length, points, goals, numbers of steps", "why_tests_cant": "histories are unbounded; an overrun of a vector is silent memory corruption that a test usually does not see", "anchors": ["include/fast_methods/datastructures/fmdaryheap.hpp FMDaryHeap::setMaxSize, push, increase, clear", "include/fast_methods/datastructures/fmfibheap.hpp FMFibHeap::setMaxSize, push, increase, clear", "include/fast_methods/fm/fmm.hpp FMM::setup, FMM::clear, FMM::reset", "include/fast_methods/fm/solver.hpp Solver::setEnvironment"]}
{"id": "C87", "title": "Any order of calls on FSM, LSM, DDQM, FIM and GMM objects is free of out-of-range accesses", "statement": "Once an FSM, LSM, DDQM, FIM or GMM solver has been given a map and points, any sequence of setEnvironment, setInitialAndGoalPoints, compute, reset and clear calls, in any order and any number of times, never causes an out-of-range cell access or another undefined operation, even when compute is called again without reset, when the points change while the lists of an earlier run that stopped at its goal are still full, or when the map is replaced, provided that the points are cells of the map in use (the goal may be -1), all maps have the same number of dimensions and no map has fewer cells than the one before it. The last condition is needed: an FIM object that stopped at its goal and is given a smaller map without reset reads cells that do not exist.", "quantifier": "all finite call sequences, all maps (any content, including leftovers, NaN and negative values), all initial points and goals within the map, all number types obeying the comparison laws (doubles and extended reals), every sweep limit, error margin and time step", "why_tests_cant": "the number of call sequences, maps and leftover lists is unbounded; tests call setEnvironment, set points, compute and reset in the one usual order", "anchors": ["include/fast_methods/fm/fsm.hpp: FSM", "include/fast_methods/fm/lsm.hpp: LSM", "include/fast_methods/fm/ddqm.hpp: DDQM", "include/fast_methods/fm/fim.hpp: FIM", "include/fast_methods/fm/gmm.hpp: GMM", "include/fast_methods/fm/solver.hpp: Solver::setEnvironment, setInitialAndGoalPoints, compute, reset, clear"]}
{"id": "C88", "title": "Calling compute() again after a complete run changes nothing", "statement": "After a compute() without a goal (goal -1) has returned, any number of further calls of compute() on the same solver, without reset, return again and leave the answer as it is: every cell that is not an initial point is unchanged in all its fields, and every initial point has time 0. This holds for FMM, FMM* and SFMM with any narrow band (doubles), for FIM, GMM and UFMM with any number of buckets and increment (any arithmetic), and for FSM (any arithmetic, when the initial points had time 0 after the first run).", "quantifier": "all maps (any shape, velocities and obstacles), all initial points (repeated, adjacent, in obstacles), any number of further calls, every heap honouring the bag laws (reference, std, d-ary, Fibonacci), every untidy queue, tolerance, step and sweep limit", "why_tests_cant": "maps, point sets and the number of calls are unbounded; the second run starts from the states, times and leftover band of the first, and whether it finds anything to do depends on all neighbours of all initial points", "anchors": ["include/fast_methods/fm/solver.hpp: Solver::compute", "include/fast_methods/fm/fmm.hpp: FMM::computeInternal", "include/fast_methods/fm/fim.hpp: FIM::computeInternal", "include/fast_methods/fm/gmm.hpp: GMM::computeInternal", "include/fast_methods/fm/ufmm.hpp: UFMM::computeInternal", "include/fast_methods/thirdparty/untidy_queue.hpp: PriorityQueue", "include/fast_methods/fm/fsm.hpp: FSM::computeInternal"]}
{"id": "C89", "title": "Continuing without a goal after a goal stop (FIM, FSM)", "statement": "After a compute() with a goal has returned (possibly early, at the goal), setting the same initial points without a goal and calling compute() again, without reset, gives a grid g2 exactly when a fresh compute() without a goal on the same map gives g2: the interrupted and the uninterrupted computation have the same answers. This holds for FIM (initial points accepted with time 0 after the first run) and FSM (initial points with time 0 after the first run; unconditional for doubles by C90). It fails for LSM and GMM (other times) and for UFMM (undefined behaviour), shown by concrete runs.", "quantifier": "all maps, initial points, goals, loop bounds, tolerances and sweep limits, any arithmetic (FSM: with the comparison laws)", "why_tests_cant": "the point at which the first run stops, and so the saved list, states, sweep direction and counters it leaves, range over unboundedly many cases", "anchors": ["include/fast_methods/fm/fim.hpp: FIM::computeInternal", "include/fast_methods/fm/fsm.hpp: FSM::computeInternal", "include/fast_methods/fm/solver.hpp: Solver::setInitialAndGoalPoints, Solver::compute"]}
{"id": "C90", "title": "No arrival time is ever negative in doubles", "statement": "In IEEE doubles, whatever the velocities (NaN, infinite, subnormal, huge) and whatever overflow or rounding happens, no solver ever leaves an arrival time below zero, provided the spacing and the times it starts from are not below zero. Consequently FSM, LSM and DDQM leave every initial point at time exactly 0, and for FSM in doubles repeating compute() (C88) and continuing after a goal stop (C89) hold without any condition on the answer.", "quantifier": "all double grids with a non-negative spacing and non-negative starting times, all initial points, goals, heaps, heuristics, steps, tolerances and limits, all runs that return", "why_tests_cant": "the sign of the quadratic's solution under rounding, cancellation and overflow depends on all combinations of neighbour times, spacing and velocity", "anchors": ["include/fast_methods/fm/eikonalsolver.hpp: EikonalSolver::solveEikonal, solveEikonalNDims", "include/fast_methods/utils/utils.h: isTimeBetterThan", "include/fast_methods/fm/fsm.hpp: FSM::solveForIdx", "include/fast_methods/fm/lsm.hpp: LSM::solveForIdx", "include/fast_methods/fm/ddqm.hpp: DDQM::computeInternal"]}
{"id": "C91", "title": "FMM-like solvers survive every sequence of calls that leaves out clear()", "statement": "On one FMM, FMM*, SFMM or SFMM* object, with any of the heaps and with the handle table of the heap, every sequence of setEnvironment, setInitialAndGoalPoints, compute and reset - computing again and again without reset, new points while the narrow band is not empty, repeated points, runs that stopped at a goal, in any order - is free of undefined behaviour (it may end with an error message), provided: the points are cells of the map in use, points are given after a map before computing, a new map is given only before the first compute or after reset(), and clear() is not called. With a heuristic all maps must have the same dimensions. Each proviso is needed: clear(), a larger map without reset(), and a larger map with a heuristic even after reset() lead to undefined behaviour.", "quantifier": "every arithmetic with the ordering laws (doubles, reals), every heap that keeps its content (binary, Fibonacci, std::priority_queue), every strategy, every map, every sequence of calls of any length", "why_tests_cant": "quantifies over all histories of calls on one object and all leftovers (stale heap order, cells still marked as narrow band) earlier runs can leave", "anchors": ["include/fast_methods/fm/fmm.hpp: setup, computeInternal, setHeuristics, reset", "include/fast_methods/fm/solver.hpp: setEnvironment, setInitialAndGoalPoints, compute, reset", "include/fast_methods/datastructures/fmdaryheap.hpp", "include/fast_methods/datastructures/fmfibheap.hpp", "include/fast_methods/datastructures/fmpriorityqueue.hpp"]}
{"id": "C92", "title": "The Fast Iterative Method on doubles can run for ever", "statement": "Over the reals FIM ends on every problem (C71), but on doubles it need not. On a 2x2 map whose source has two neighbours crossed in 2^27 time units and whose fourth cell is crossed in one, no number of passes suffices, whatever the tolerance given to the solver (anything but +infinity): the fourth cell's time alternates between +infinity and a value not later than its neighbours'. With the default tolerance 0 the same happens with times as small as 730. In general, in any arithmetic and on any map, if the only active cell's time goes from p to q and back and the tolerance accepts neither change, the run never ends. FMM and FSM end on these maps, and FIM ends on the second with tolerance 2^-30.", "quantifier": "every number of passes, every tolerance other than +infinity (first map), goal absent or the fourth cell; every arithmetic and map for the general form", "why_tests_cant": "a test that runs for ever cannot be told from a slow one; that no tolerance and no number of iterations ends the run is a statement about all of them", "anchors": ["include/fast_methods/fm/fim.hpp:72-98 computeInternal", "include/fast_methods/fm/eikonalsolver.hpp:48-105 solveEikonal"]}
{"id": "C93", "title": "UFMM is defined on every map whose times fit the bucket number, and undefined beyond", "statement": "With exact arithmetic, on any reset map, also with cells slower than the increment of the untidy queue: if the slowest free cell takes F to cross and F * cells * buckets / increment < 2^32, UFMM ends without undefined behaviour, every accepted cell has a time not before the exact one and at most F times the number of accepted cells, and without goal the accepted cells are exactly the cells connected to the sources. Beyond the bound the conversion of the bucket number to unsigned is undefined: every push or increase of a time at 2^32 buckets or more from the origin is; with the default queue a single free cell of velocity 1e-8 next to the source suffices.", "quantifier": "for all dimensions, sizes, real velocity maps, source sets, goals, bucket counts and increments", "why_tests_cant": "the absence of undefined conversions must hold for every map and every order in which the untidy queue gives cells back; the conversion is silent on the usual machines", "anchors": ["include/fast_methods/fm/ufmm.hpp: computeInternal", "include/fast_methods/thirdparty/untidy_queue.hpp:107-113,180-186"]}
{"id": "C94", "title": "Grid files are read by Matlab cell for cell, with the axes exchanged in two dimensions", "statement": "For every grid of two or more dimensions, parseGrid.m on the file of saveGridValues or saveVelocities returns the type line, leaf size, number of dimensions and dimensions, and an array in which the cell (x, y, z, ...) is at subscripts (x+1, y+1, z+1, ...), except that in two dimensions it is at (y+1, x+1), each value as its text reads. A file with fewer or more values than cells, with an unreadable value, or of a one-dimensional grid is an error for the script, while the C++ loader completes it silently.", "quantifier": "every number and size of dimensions, every content, every number-to-text conversion that writes words the reader accepts; every short file", "why_tests_cant": "the exchange of axes must hold for every cell of every size of map; the visual check used in practice cannot tell a transposed symmetrical map", "anchors": ["scripts/parseGrid.m", "include/fast_methods/io/gridwriter.hpp:saveGridValues,saveVelocities"]}
{"id": "C95", "title": "Arrays saved from Matlab load as maps; a round trip through Matlab transposes two-dimensional maps", "statement": "loadMapFromText on the file of saveGridToFile.m gives the cell (x, y, z, ...) the velocity A(x+1, y+1, z+1, ...) as '%.2f' writes it, marks the grid clean and lists the obstacles, for every array of two or more sizes, when asked for as many dimensions as the array has without trailing sizes of one. An array of three or more sizes whose last size is one makes a program that expects all of them exit. Saving velocities in C++, reading them with parseGrid.m, saving the array and loading it again exchanges x and y of a two-dimensional map and leaves every cell of other maps in place.", "quantifier": "every array size and content, every leaf size, every map", "why_tests_cant": "it must hold for every size and every cell, including non-square maps and sizes of one", "anchors": ["scripts/saveGridToFile.m", "scripts/parseGrid.m", "include/fast_methods/io/maploader.hpp:loadMapFromText"]}
{"id": "C96", "title": "Paths and indices in Matlab", "statement": "parsepath.m on the file of savePath returns exactly the points of the path, each coordinate as its text reads plus one. parsepathvel.m on the file of savePathVelocity returns the points and their velocities, followed by floor(points/dimensions) rows of zeros; where fractional array sizes are refused it fails on every path whose number of points is not a multiple of the number of dimensions. idx2coord.m returns the coordinates of nDGridMap::idx2coord plus one for every cell of every grid.", "quantifier": "every path of points with the grid's number of coordinates, every number of points, every grid", "why_tests_cant": "the surplus rows depend on the number of points and dimensions: all of them must be covered", "anchors": ["scripts/parsepath.m", "scripts/parsepathvel.m", "scripts/idx2coord.m", "include/fast_methods/io/gridwriter.hpp:savePath,savePathVelocity"]}
{"id": "C97", "title": "The benchmark log read back is the benchmark that was run", "statement": "For every completed Benchmark::run into an empty log, parseBenchmarkLog.m returns the benchmark's name, number of runs, dimensions, start points, goal (NaN without goal), the number of runs in all, and for every solver in order its name and the times of exactly its own runs; provided no name and no time contains white space. With white space in a name the log is unreadable or the names and times are assigned wrongly.", "quantifier": "every set of solvers, number of runs, map, start points and goal, every time text; names without spaces", "why_tests_cant": "the attribution of times to solvers must hold for any number of solvers, runs and start points", "anchors": ["scripts/parseBenchmarkLog.m", "include/fast_methods/benchmark/benchmark.hpp:run,logRun,logConfig"]}
{"id": "C98", "title": "fm_benchmark runs exactly what the configuration file asks for", "statement": "Every option has the value its file gives, else the documented default; an option given twice, or a file without problem.start, aborts. Whenever the program ends normally on FMCell with 2 or 3 dimensions, it returns 0 and ran the benchmark of that file: its name, number of runs, saving mode, solvers with their parameters, map (image, else text, else empty box), leaf size, start and goal; results/NAME.log is the last file, readable by parseBenchmarkLog.m with exactly those data; and unless lsm/ddqm is among the solvers each saved grid is what its solver computes alone on that map, named by run (savegrid 2) or by solver (savegrid 1). With no argument it returns 1; with an unreadable file, another cell type or another number of dimensions it silently returns 0 and writes nothing. The leaf size of a map loaded from text is ignored; start coordinates outside the map are not rejected but carried into the next dimension.", "quantifier": "every list of options of the file, every file content behind grid.text/grid.file, every number of runs and list of solvers", "why_tests_cant": "the configuration, the maps and the lists of solvers are unbounded, and the claim relates all the files of a run to the configuration", "anchors": ["src/benchmark/fm_benchmark.cpp:main", "include/fast_methods/benchmark/benchmarkcfg.hpp:readOptions,configure,getValue,splitAndCast", "include/fast_methods/benchmark/benchmark.hpp:run", "include/fast_methods/io/maploader.hpp"]}
{"id": "C99", "title": "A benchmark comes to its end", "statement": "On doubles, with any list of solvers among fmm, fmmstar, fmmfib, fmmfibstar, sfmm, sfmmstar and fsm (any heuristic, name and number of sweeps), on any map with two or more dimensions of 2 to 65536 cells each and at most 2^31 cells, from a free start (or several starts inside the map) to a free goal that is none of them, or without goal: Benchmark::run ends without undefined behaviour or exit whatever the number of runs and the saving mode, and fm_benchmark on a configuration file describing such a problem returns 0. In general a benchmark of newly made solvers ends as soon as each of them ends when it is alone on the map. A map that cannot be opened ends fm_benchmark before any file is written: with status 1 for a text map, abnormally for an image.", "quantifier": "every map, every start and goal, every list of these solvers, every number of runs, every configuration file", "why_tests_cant": "termination over all maps and all sequences of runs on one shared map", "anchors": ["include/fast_methods/benchmark/benchmark.hpp:run", "src/benchmark/fm_benchmark.cpp:main", "include/fast_methods/fm/fmm.hpp", "include/fast_methods/fm/fsm.hpp"]}
{"id": "C100", "title": "Solvers used in turn on one grid do not disturb each other", "statement": "Take any list of newly made solvers of any of the library's classes (FMM with any queue and heuristics, FSM, LSM, DDQM, FIM, GMM, UFMM, any parameters), and for each in turn call setEnvironment with the same grid, setInitialAndGoalPoints with the same points, setup if wanted, and compute (the loop of examples/test_fm.cpp). Then the grid after each compute is the grid that this solver leaves when it is the only one ever used on the map, which is what its algorithm computes there with the parameters it was made with; the loop ends if each solver ends on its own (on doubles: FMM, FSM, LSM and DDQM on a valid problem always do); calling setup first makes no difference, not even to the outcome when it exits or is undefined. examples/test_fmm3d.cpp on a map of w x h x d cells starts from the cell with index 5+5w+5wh, i.e. (5,5,5) when that is inside; if the index is beyond the last cell or no map is given it is undefined behaviour, if that cell is an obstacle it exits with status 1, and otherwise it returns 0 and writes the times that FMM computes.", "quantifier": "every list of new solvers and parameters, every grid, points and goal, every map file", "why_tests_cant": "all sequences of solvers sharing one mutable grid; a test checks a few orders on one map", "anchors": ["examples/test_fm.cpp:main", "examples/test_fmm3d.cpp:main", "include/fast_methods/fm/solver.hpp:setEnvironment", "include/fast_methods/fm/solver.hpp:setup", "include/fast_methods/fm/solver.hpp:compute"]}
{"id": "C101", "title": "Making a map easier never makes an arrival later", "statement": "Take a map and a second one of the same shape and cell size in which every cell that can be crossed in the first can be crossed at least as fast (obstacles may be removed, velocities raised), and to which initial points may have been added. Whatever any solver, with any goal and parameters, reports as the arrival time of a cell on the first map, FMM, FSM, LSM and DDQM computing completely on the second map reach that cell, no later than that up to the accuracy of the solvers: 2*COMP_MARGIN per cell of the grid in exact arithmetic, the relative errors of C76 and C77 on doubles (there the first run is one of these four, FMM* or SFMM* from one initial point or obstacles, UFMM or GMM).", "quantifier": "every pair of maps, every set of initial points, every pair of solvers, goals and parameters", "why_tests_cant": "a relation between the results on all pairs of maps", "anchors": ["include/fast_methods/fm/eikonalsolver.hpp:solveEikonal", "include/fast_methods/fm/fmm.hpp:computeInternal", "include/fast_methods/fm/fsm.hpp", "include/fast_methods/fm/lsm.hpp", "include/fast_methods/fm/ddqm.hpp"]}
{"id": "C102", "title": "Mirroring or rotating a map mirrors or rotates its arrival times", "statement": "If a map with its initial points is mirrored along any dimension, or any of its dimensions are exchanged, or any combination of these (rotations in particular), then a cell is reached in the one exactly when its image is reached in the other, and the two times are equal up to the accuracy of the solvers (as in C101): the order in which dimensions are scanned, sweeps are made and neighbours are visited does not favour a direction. The two runs may use different solvers among FMM, FSM, LSM and DDQM.", "quantifier": "every map in any number of dimensions, every symmetry of the box, every pair of solvers", "why_tests_cant": "all maps and all symmetries; every solver visits the image in another order", "anchors": ["include/fast_methods/ndgridmap/ndgridmap.hpp:getNeighborsInDim", "include/fast_methods/fm/eikonalsolver.hpp:solveEikonal", "include/fast_methods/fm/fsm.hpp:setSweep"]}
{"id": "C103", "title": "Changing units scales the arrival times", "statement": "If the cell size of a map is multiplied by a and all its velocities by b (the obstacles staying the same cells), the same cells are reached and every arrival time is multiplied by a/b, up to the accuracy of the solvers on the two maps (as in C101), for FMM, FSM, LSM and DDQM in any combination.", "quantifier": "every map, every a and b, every pair of solvers", "why_tests_cant": "all maps and all scalings", "anchors": ["include/fast_methods/fm/eikonalsolver.hpp:solveEikonal", "include/fast_methods/ndgridmap/ndgridmap.hpp:getLeafSize", "include/fast_methods/utils/utils.h:COMP_MARGIN"]}
{"id": "C104", "title": "Arrival times behave as distances", "statement": "For FMM, FSM, LSM and DDQM computing completely: the end of every route of free cells from an initial point, each next to the one before, is reached, no later than the sum over the route of cell size / velocity of the cells entered. For every solver, whatever its goal and parameters: a time computed from one initial point is never below the straight-line distance divided by the largest velocity of the map (from several initial points it can be). And going by way of a cell b never saves time: the time from a to c is at most the time from a to b plus the time from b to c. All up to the accuracy of the solvers as in C101 (the straight line in exact arithmetic without any error). Times are not symmetric: going back can take longer, as a step is paid at the speed of the cell entered.", "quantifier": "every map, every route, every three cells, every solver", "why_tests_cant": "all maps, all routes and all triples of cells", "anchors": ["include/fast_methods/fm/eikonalsolver.hpp:solveEikonal", "include/fast_methods/fm/fmm.hpp:computeInternal", "include/fast_methods/fm/fsm.hpp", "include/fast_methods/fm/lsm.hpp", "include/fast_methods/fm/ddqm.hpp"]}
{"id": "C105", "title": "Arrival times depend continuously on the velocities", "statement": "If every cell that can be crossed in a map can be crossed in a second map of the same shape, cell size and initial points, taking at most k times as long (its velocity is at least the k-th part), then the arrival times on the second map are at most k times those on the first, up to the accuracy of the solvers: velocities that are known to one per cent give times known to one per cent, and no small change of a map can make an arrival time jump. Holds for whatever any solver with any goal and parameters reports on the first map, and for FMM, FSM, LSM and DDQM computing completely on the second.", "quantifier": "every pair of maps, every factor k, every pair of solvers, goals and parameters", "why_tests_cant": "a relation between the results on all pairs of maps", "anchors": ["include/fast_methods/fm/eikonalsolver.hpp:solveEikonal", "include/fast_methods/fm/fmm.hpp:computeInternal", "include/fast_methods/fm/fsm.hpp", "include/fast_methods/fm/lsm.hpp", "include/fast_methods/fm/ddqm.hpp"]}
{"id": "C106", "title": "Cells reached later do not matter", "statement": "An arrival time is decided only by the cells that the wave reaches before: if the cells which a complete computation reaches later than a time t0 (by more than the accuracy of the solver), or not at all, are made slower or become obstacles, every cell reached by t0 keeps its arrival time, up to the accuracy of the solvers. So a map may be changed ahead of the wave front without recomputing what lies behind it, with FMM, FSM, LSM and DDQM in any combination.", "quantifier": "every map, every time t0, every change of the later cells, every pair of solvers", "why_tests_cant": "all maps, all changes of the cells reached later", "anchors": ["include/fast_methods/fm/eikonalsolver.hpp:solveEikonal", "include/fast_methods/fm/fmm.hpp:computeInternal", "include/fast_methods/fm/fsm.hpp", "include/fast_methods/fm/lsm.hpp", "include/fast_methods/fm/ddqm.hpp"]}
{"id": "C107", "title": "On open ground a time lies between the straight line and the number of steps", "statement": "From one initial point, if the block of cells spanned by the initial point and a cell has one velocity, the largest of the map, and no obstacles, that cell is reached, no earlier than the straight-line distance divided by the velocity and no later than the number of steps between them times cell size / velocity (plus the accuracy of the solver), in any number of dimensions; so along a coordinate axis the time is the distance divided by the velocity, whatever lies elsewhere on the map. For FMM, FSM, LSM and DDQM computing completely.", "quantifier": "every map with an open block, every pair of corners of it, every solver", "why_tests_cant": "all sizes, all dimensions and everything else that may be on the map", "anchors": ["include/fast_methods/fm/eikonalsolver.hpp:solveEikonal", "include/fast_methods/fm/fmm.hpp:computeInternal", "include/fast_methods/fm/fsm.hpp", "include/fast_methods/fm/lsm.hpp", "include/fast_methods/fm/ddqm.hpp"]}
{"id": "C108", "title": "Every cell is reached from an earlier neighbour: downhill ways to the initial points", "statement": "After a complete run, every cell with an arrival time that is no initial point has a neighbour whose arrival time is earlier by at least the cell's own cost (spacing over velocity) divided by the square root of the number of dimensions, up to the error of the solvers. So, when the costs are above that error, from every reached cell a way from neighbour to neighbour with strictly decreasing times ends at an initial point: the times have no local minimum away from the initial points.", "quantifier": "Every map, dimension count, set of initial points and reached cell; the results of FMM (any heap), FSM, LSM and DDQM, in real arithmetic and in doubles.", "why_tests_cant": "A test looks for local minima on the maps it has; the absence of them, which the path extraction from the times relies on, is a statement about all maps and all cells.", "anchors": ["include/fast_methods/fm/eikonalsolver.hpp:solveEikonal", "include/fast_methods/fm/fmm.hpp:computeInternal", "include/fast_methods/fm/fsm.hpp:computeInternal", "include/fast_methods/fm/lsm.hpp:computeInternal", "include/fast_methods/fm/ddqm.hpp:computeInternal", "include/fast_methods/gradientdescent/gradientdescent.hpp:apply"]}
{"id": "C109", "title": "What lies behind walls does not matter: a map placed in a larger one keeps its times", "statement": "If a map is placed inside a larger one, at any offset and also as one layer of a map with more dimensions, and every cell of the larger map bordering on it is an obstacle and no initial point, then the arrival times inside are those of the small map alone, up to the error of the solvers and whatever velocities, obstacles and initial points lie outside the walls. In particular a map has the same times in a map with one more dimension whose neighbouring layers are obstacles.", "quantifier": "Every pair of maps, offset, dimension counts, set of initial points and cell; the results of FMM (any heap), FSM, LSM and DDQM in real arithmetic, and of all solvers bounded from both sides in doubles. Both maps have at least two cells in every dimension.", "why_tests_cant": "A test compares two runs on one map; that nothing outside the walls can influence the inside concerns every content of the outside, and the dimension-dependent indexing and update for every dimension count.", "anchors": ["include/fast_methods/ndgridmap/ndgridmap.hpp:getNeighbors", "include/fast_methods/ndgridmap/ndgridmap.hpp:getMinValueInDim", "include/fast_methods/fm/eikonalsolver.hpp:solveEikonal", "include/fast_methods/fm/fmm.hpp:computeInternal", "include/fast_methods/fm/fsm.hpp:computeInternal"]}
{"id": "C110", "title": "The order in which initial points are given, and giving one of them twice, does not matter", "statement": "Two lists of initial points naming the same set of cells (in any order, and with repeats) lead FSM and LSM to identical runs: the same final grid, the same sweeps, the same failure if any, in every arithmetic. For all seven solvers, two lists of distinct points that are reorderings of each other lead to results that agree up to the solver's stated accuracy, in exact arithmetic and in double precision, and to exactly the same set of reached cells.", "quantifier": "all grids, all pairs of lists of initial points naming the same cells, all sweep orders and goals; for the second part all problems in which the accuracy theorems hold", "why_tests_cant": "There are factorially many orders of a list of points and each interacts with every obstacle and velocity map; a test fixes one order.", "anchors": ["include/fast_methods/fm/fsm.hpp: FSM::computeInternal", "include/fast_methods/fm/lsm.hpp: LSM::computeInternal", "include/fast_methods/fm/fmm.hpp: FMM::computeInternal", "include/fast_methods/fm/ddqm.hpp: DDQM::computeInternal", "include/fast_methods/fm/solver.hpp: Solver::setInitialAndGoalPoints"]}
{"id": "C111", "title": "Neighbouring initial points: which solvers leave every initial point at time zero", "statement": "The initial points may be next to one another (a source drawn as a blob or a line). FSM, LSM, DDQM and GMM leave every initial point at arrival time zero then too: GMM in every arithmetic and on every grid on which it has a result, the other three in exact arithmetic on every problem and in double precision on every clean map. FMM, FMM*, SFMM and SFMM* do not: of two free neighbouring cells they have accepted, at most one is at time zero, so after a complete run at least one of two free neighbouring initial points is later than zero. Of two neighbouring initial points FIM leaves the one given later in the list, if it is free, later than zero. UFMM may have no result at all (it converts an infinite number to an integer).", "quantifier": "all grids, obstacle and velocity maps, all sets of initial points with neighbouring ones among them, all goals, heuristics, narrow bands, sweep counts, thresholds and tolerances", "why_tests_cant": "Whether an initial point is overwritten depends on the order of pops, the heap's tie-breaking and the neighbours of neighbours; unit tests use separated points, for which all solvers agree.", "anchors": ["include/fast_methods/fm/fmm.hpp: FMM::computeInternal, FMM::init", "include/fast_methods/fm/sfmm.hpp: SFMM", "include/fast_methods/fm/fsm.hpp: FSM::computeInternal", "include/fast_methods/fm/lsm.hpp: LSM::computeInternal", "include/fast_methods/fm/ddqm.hpp: DDQM::computeInternal", "include/fast_methods/fm/gmm.hpp: GMM::computeInternal", "include/fast_methods/fm/fim.hpp: FIM::computeInternal", "include/fast_methods/fm/ufmm.hpp: UFMM::computeInternal"]}
{"id": "C112", "title": "The example program test_fm2 compares planners fairly", "statement": "The program test_fm2 needs at least two arguments (else status 1); without a file behind the first -map, or with one that is not a readable image, it is aborted. It ends with status 0 exactly when each of its nine planners (FM2 and FM2* over three heaps) ends on the map alone, and then each planner's grid, path, velocities and picture are the ones it computes on a freshly loaded map: planners that ran before have no influence. Start and goal are the cells with indices 30+20w and 375+280w, that is (30,20) and (375,280) on maps of at least 376 x 281 cells; beyond the last cell they are undefined behaviour; an obstacle at either, no obstacle or a single one on the map make it exit with status 1. On a map with two dark pixels or more and free start and goal, compute() of the planners over the d-ary and Fibonacci heaps ends; with exact arithmetic the velocities are the normalised times from the obstacles, the goal has time 0, FM2 gives the start the time of an Eikonal solution and FM2* a time exactly if it is joined to the goal.", "quantifier": "every command line, image, map size and content; any arithmetic for the sequence, exact and double arithmetic for the answers", "why_tests_cant": "all maps and all orders of planners", "anchors": ["examples/test_fm2.cpp: main", "include/fast_methods/io/maploader.hpp: loadMapFromImg", "include/fast_methods/fm2/fm2.hpp: computePath", "include/fast_methods/fm2/fm2star.hpp: setInitialAndGoalPoints", "include/fast_methods/console/console.h: parseArguments"]}
{"id": "C113", "title": "An LSM in a benchmark costs the next solver its first run and nothing else", "statement": "In a Benchmark over newly made solvers of the library, where LSM leaves every cell frozen after its closing reset(): if run() ends, each run of each solver gives (and, when grids are saved, its file holds) what that solver computes alone on the clean map, except the first run of a solver that comes right after an LSM and is neither LSM nor DDQM. Hence an LSM that stands last, or is followed only by LSM and DDQM, changes no result; with at least two runs per solver the one-file-per-solver mode saves no damaged grid; and the map is handed back clean unless LSM is the last solver. The example program test_fm_benchmark (15 solvers, LSM followed by DDQM, three runs each, empty 300x300 map) therefore logs one configuration line and 45 runs numbered from 1, three per solver in the order they were added, and leaves the map clean; had it saved the grids, all 45 would be the undamaged ones.", "quantifier": "every list of solvers, in any order, every map whose size fits the index type, start, goal and number of runs", "why_tests_cant": "all orders of solvers and all maps", "anchors": ["include/fast_methods/benchmark/benchmark.hpp: Benchmark::run", "include/fast_methods/fm/lsm.hpp: reset", "include/fast_methods/fm/ddqm.hpp: reset, setEnvironment, computeInternal", "include/fast_methods/fm/solver.hpp: reset", "examples/test_fm_benchmark.cpp: main"]}

(** SweepModel.v - model of FSM and LSM (include/fast_methods/fm/fsm.hpp, lsm.hpp).
    Signed [int] index arithmetic is done in Z; it cannot overflow when
    size() < 2^31, which the theorems assume. *)
From Verif Require Import Base Num Grid Eikonal.

(** fsm.hpp:180-187 initializeSweepArrays (incs_; inits_/ends_ are recomputed
    by setSweep before every use) *)
Definition init_incs (n : nat) : list Z := repeat 1 n.

(** fsm.hpp:155-161 (setSweep): advance incs_ *)
Fixpoint next_incs (incs : list Z) : list Z :=
  match incs with
  | [] => []
  | x :: r => if x + 2 <=? 1 then (x + 2) :: r else (-1) :: next_incs r
  end.

(** fsm.hpp:164-176 (setSweep): (inits_[i], ends_[i]) *)
Definition sweep_bounds (inc dim : Z) : Z * Z :=
  if inc =? 1 then (0, dim) else (dim - 1, -1).

(** The values taken by [for (int i = init; i != end; i += inc)] when it
    terminates (init on the right side of end, inc = 1 or -1). *)
Definition loop_range (init end_ inc : Z) : list Z :=
  map (fun k => init + inc * Z.of_nat k) (seq 0 (Z.to_nat (Z.abs (end_ - init)))).

Definition dim_range (inc dim : Z) : list Z :=
  let '(i, e) := sweep_bounds inc dim in loop_range i e inc.

(** fsm.hpp:118-129 recursiveIteration: the nested loops.  [levels] holds, from
    the current depth down to 0, the values of i and the stride
    d_[depth-1] (1 for depth 0).  [f] is the body (lines 126-127). *)
Fixpoint recIter {S} (f : S -> Z -> res S) (levels : list (list Z * Z)) (it : Z) (s : S) : res S :=
  match levels with
  | [] => f s it
  | (is_, st) :: r => foldM (fun s i => recIter f r (it + i * st) s) is_ s
  end.

(** Levels of one sweep, deepest loop last. fsm.hpp:54-64 (dimsize_, d_) and 118-125 *)
Definition sweep_levels (sh : shape) (incs : list Z) : list (list Z * Z) :=
  rev (combine (map (fun '(i, d) => dim_range i d) (combine incs (s_dims sh)))
               (1 :: s_d sh)).

Section Sweep.
Context {N : Num}.
Local Open Scope num_scope.

(** grid_, keepSweeping_, stopPropagation_ *)
Record sw_state := mkSw { sw_g : grid N; sw_keep : bool; sw_stop : bool }.

(** fsm.hpp:132-143 solveForIdx *)
Definition fsm_solveForIdx (goal : Z) (s : sw_state) (idx : Z) : res sw_state :=
  prev <- getArrivalTime (sw_g s) idx ;;
  t <- solveEikonal (sw_g s) idx ;;
  if isTimeBetterThan t prev then
    g' <- setArrivalTime (sw_g s) idx t ;;
    Ok (mkSw g' true (sw_stop s))
  else if negb (nisnan t) && negb (nisinf t) && (idx =? goal)%Z
  then Ok (mkSw (sw_g s) (sw_keep s) true)
  else Ok s.

(** lsm.hpp:98-119 solveForIdx *)
Definition lsm_solveForIdx (goal : Z) (s : sw_state) (idx : Z) : res sw_state :=
  c <- getCell (sw_g s) idx ;;
  if fmstate_eqb (c_state c) OPEN then
    let prev := c_val c in
    t <- solveEikonal (sw_g s) idx ;;
    s1 <- (if isTimeBetterThan t prev then
             g1 <- setArrivalTime (sw_g s) idx t ;;
             ns <- getNeighbors (g_sh g1) idx ;;
             g2 <- foldM (fun g j => v <- getArrivalTime g j ;;
                            if isTimeBetterThan t v then setState g j OPEN else Ok g) ns g1 ;;
             Ok (mkSw g2 true (sw_stop s))
           else if negb (nisnan t) && negb (nisinf t) && (idx =? goal)%Z
           then Ok (mkSw (sw_g s) (sw_keep s) true)
           else Ok s) ;;
    g3 <- setState (sw_g s1) idx FROZEN ;;
    Ok (mkSw g3 (sw_keep s1) (sw_stop s1))
  else Ok s.

(** fsm.hpp:126-127: skip occupied cells *)
Definition visit (solve : sw_state -> Z -> res sw_state) (s : sw_state) (idx : Z) : res sw_state :=
  c <- getCell (sw_g s) idx ;;
  if isOccupied c then Ok s else solve s idx.

(** One sweep with given directions: fsm.hpp:95 *)
Definition one_sweep (solve : sw_state -> Z -> res sw_state) (incs : list Z) (s : sw_state)
  : res sw_state :=
  recIter (visit solve) (sweep_levels (g_sh (sw_g s)) incs) 0 s.

(** fsm.hpp:91-96 (and lsm.hpp:72-77): the sweeping loop.  Returns the final
    state, the number of sweeps (sweeps_) and the final incs_. *)
Fixpoint sweep_loop (solve : sw_state -> Z -> res sw_state) (fuel : nat) (maxSweeps : Z)
    (sweeps : Z) (incs : list Z) (s : sw_state) : res (sw_state * Z * list Z) :=
  if sw_keep s && negb (sw_stop s) && (sweeps <? maxSweeps)%Z then
    match fuel with
    | O => Fail OutOfFuel
    | S k =>
        let incs' := next_incs incs in
        s' <- one_sweep solve incs' (mkSw (sw_g s) false (sw_stop s)) ;;
        sweep_loop solve k maxSweeps (sweeps + 1)%Z incs' s'
    end
  else Ok (s, sweeps, incs).

(** fsm.hpp:85-96 computeInternal after setup() *)
Definition fsm_run (fuel : nat) (maxSweeps goal : Z) (init : list Z)
    (sweeps : Z) (incs : list Z) (g : grid N) : res (sw_state * Z * list Z) :=
  g0 <- foldM (fun g i => setArrivalTime g i n0) init g ;;
  sweep_loop (fsm_solveForIdx goal) fuel maxSweeps sweeps incs (mkSw g0 true false).

(** lsm.hpp:57-58 (and 83-84): for i in 0..size()-1 setState(FROZEN) *)
Definition freeze_all (g : grid N) : res (grid N) :=
  foldM (fun g i => setState g i FROZEN) (zseq (Z.to_nat (gsize g))) g.

(** lsm.hpp:61-66, body for one initial point *)
Definition lsm_init1 (g : grid N) (i : Z) : res (grid N) :=
  g1 <- setArrivalTime g i n0 ;;
  ns <- getNeighbors (g_sh g1) i ;;
  foldM (fun g j => setState g j OPEN) ns g1.

(** lsm.hpp:57-77 computeInternal after setup() *)
Definition lsm_run (fuel : nat) (maxSweeps goal : Z) (init : list Z)
    (sweeps : Z) (incs : list Z) (g : grid N) : res (sw_state * Z * list Z) :=
  g0 <- freeze_all g ;;
  g1 <- foldM lsm_init1 init g0 ;;
  sweep_loop (lsm_solveForIdx goal) fuel maxSweeps sweeps incs (mkSw g1 true false).

End Sweep.

Arguments mkSw {N}. Arguments sw_g {N}. Arguments sw_keep {N}. Arguments sw_stop {N}.

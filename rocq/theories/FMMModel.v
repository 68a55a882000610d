(** FMMModel.v - model of FMM and of the heap interface it uses
    (include/fast_methods/fm/fmm.hpp, datastructures/fm*heap.hpp). *)
From Verif Require Import Base Num Grid Eikonal.

(** goal_idx_ = -1 stored in an unsigned (solver.hpp:67, 170): no goal. *)
Definition noGoal : Z := 4294967295.

(** Interface of FMDaryHeap / FMFibHeap / FMPriorityQueue as used by FMM.
    A heap stores pointers to cells, i.e. indices; it compares them by their
    current total value, given as a function from indices.
    [hincrease] uses a stored handle: [Fail UB] when the handle is stale. *)
Record HeapOps (N : Num) := mkHeap {
  heap : Type;
  hempty : heap;
  hpush : (Z -> N) -> Z -> heap -> heap;                  (* fmdaryheap.hpp:51-54 *)
  hincrease : (Z -> N) -> Z -> heap -> res heap;          (* fmdaryheap.hpp:79-82 *)
  hpop : (Z -> N) -> heap -> option (Z * heap);           (* fmdaryheap.hpp:57-62; None = empty *)
  helems : heap -> list Z                                 (* content, for specifications *)
}.
Arguments heap {N}. Arguments hempty {N}. Arguments hpush {N}. Arguments hincrease {N}.
Arguments hpop {N}. Arguments helems {N}.

(** fmm.hpp:62 *)
Inductive HeurStrategy := NOHEUR | TIME | DISTANCE.

Section FMM.
Context {N : Num}.
Variable HO : HeapOps N.
Local Open Scope num_scope.

(** The part of the FMM object that is constant during computeInternal:
    heurStrategy_, distances_, heur_coord_ (fmm.hpp:241-251). *)
Record fmm_cfg := mkCfg {
  fc_strat : HeurStrategy; fc_dist : list N; fc_goalc : list Z
}.

Definition no_heur : fmm_cfg := mkCfg NOHEUR [] [].

(** fmm.hpp:182-199 precomputeDistances (distances_[i] for i = 0..size-1):
    coords[j]*coords[j] is an unsigned product.  The vector is only reserved,
    not resized, before operator[] is used: see [precompute_strict]. *)
Definition precomputeDistances (sh : shape) : res (list N) :=
  mapM (fun i => cs <- idx2coord sh i ;;
                 Ok (nsqrt (fold_left (fun d c => d + nofZ (u32 (c * c))) cs n0)))
       (zseq (Z.to_nat (s_n sh))).

(** fmm.hpp:184 and 196 read strictly: operator[] on a vector of size
    [vec_size] (0 after reserve) is UB for any index. *)
Definition precompute_strict (vec_size : Z) (sh : shape) : res (list N) :=
  if (0 <? s_n sh)%Z && (vec_size <? s_n sh)%Z then Fail UB else precomputeDistances sh.

(** fmm.hpp:203-215 getPrecomputedDistance *)
Definition getPrecomputedDistance (cfg : fmm_cfg) (sh : shape) (idx : Z) : res N :=
  pos <- idx2coord sh idx ;;
  dist <- mapM (fun '(p, q) => absUI (u32 (p - q))) (combine pos (fc_goalc cfg)) ;;
  i <- coord2idx sh dist ;;
  vget (fc_dist cfg) i.

(** fmm.hpp:104-107 and 125-128: setting the heuristic of a cell. *)
Definition fmm_heur (cfg : fmm_cfg) (g : grid N) (j : Z) : res (grid N) :=
  match fc_strat cfg with
  | NOHEUR => Ok g
  | TIME => d <- getPrecomputedDistance cfg (g_sh g) j ;;
            c <- getCell g j ;;
            setHeuristicTime g j (d / c_occ c)
  | DISTANCE => d <- getPrecomputedDistance cfg (g_sh g) j ;;
                setHeuristicTime g j d
  end.

(** Total value of the cell a heap pointer refers to (fmcompare.hpp:30-31). *)
Definition key (g : grid N) (i : Z) : N :=
  match getCell g i with Ok c => getTotalValue c | Fail _ => ninf end.

Record fmm_state := mkFst { fs_g : grid N; fs_h : heap HO }.

(** fmm.hpp:101-109, body for one initial point *)
Definition fmm_init1 (cfg : fmm_cfg) (st : fmm_state) (i : Z) : res fmm_state :=
  g1 <- setArrivalTime (fs_g st) i n0 ;;
  g2 <- fmm_heur cfg g1 i ;;
  Ok (mkFst g2 (hpush HO (key g2) i (fs_h st))).

(** fmm.hpp:117-143, body for one neighbour j *)
Definition fmm_neighbor (cfg : fmm_cfg) (st : fmm_state) (j : Z) : res fmm_state :=
  let g := fs_g st in
  c <- getCell g j ;;
  if fmstate_eqb (c_state c) FROZEN || isOccupied c then Ok st      (* 119-120 *)
  else
    t <- solveEikonal g j ;;                                        (* 122 *)
    g1 <- fmm_heur cfg g j ;;                                       (* 125-128 *)
    c1 <- getCell g1 j ;;
    if fmstate_eqb (c_state c1) NARROW then                         (* 131 *)
      if isTimeBetterThan t (c_val c1) then                         (* 132 *)
        g2 <- setArrivalTime g1 j t ;;
        h2 <- hincrease HO (key g2) j (fs_h st) ;;
        Ok (mkFst g2 h2)
      else Ok (mkFst g1 (fs_h st))
    else                                                            (* 137-141 *)
      g2 <- setState g1 j NARROW ;;
      g3 <- setArrivalTime g2 j t ;;
      Ok (mkFst g3 (hpush HO (key g3) j (fs_h st))).

(** fmm.hpp:114-143: one iteration of the main loop; also returns the popped
    index.  None: the narrow band is empty. *)
Definition fmm_step (cfg : fmm_cfg) (st : fmm_state) : res (option (Z * fmm_state)) :=
  match hpop HO (key (fs_g st)) (fs_h st) with
  | None => Ok None
  | Some (m, h1) =>
      ns <- getNeighbors (g_sh (fs_g st)) m ;;
      g1 <- setState (fs_g st) m FROZEN ;;
      st' <- foldM (fmm_neighbor cfg) ns (mkFst g1 h1) ;;
      Ok (Some (m, st'))
  end.

(** fmm.hpp:113-147: the main loop.  [log] is a ghost: the indices popped so
    far, most recent first. *)
Fixpoint fmm_loop (fuel : nat) (cfg : fmm_cfg) (goal : Z) (st : fmm_state) (log : list Z)
  : res (fmm_state * list Z) :=
  match fuel with
  | O => Fail OutOfFuel
  | S k =>
      r <- fmm_step cfg st ;;
      match r with
      | None => Ok (st, log)
      | Some (m, st') =>
          if (m =? goal)%Z then Ok (st', m :: log)
          else fmm_loop k cfg goal st' (m :: log)
      end
  end.

(** fmm.hpp:96-147 computeInternal after setup(), from the narrow band [h0]
    the object holds (empty after construction, reset() or a full run). *)
Definition fmm_run (fuel : nat) (cfg : fmm_cfg) (goal : Z) (init : list Z)
    (g : grid N) (h0 : heap HO) : res (fmm_state * list Z) :=
  st <- foldM (fmm_init1 cfg) init (mkFst g h0) ;;
  fmm_loop fuel cfg goal st [].

End FMM.

Arguments mkFst {N HO}. Arguments fs_g {N HO}. Arguments fs_h {N HO}.

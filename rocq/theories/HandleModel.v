(** HandleModel.v - the table of handles of FMDaryHeap and FMFibHeap
    (datastructures/fmdaryheap.hpp:34-104, datastructures/fmfibheap.hpp:34-104) and how
    FMM sizes it (fm/fmm.hpp:78-88, 168-179).

    handles_ is a std::vector with one slot per cell: setMaxSize(n) gives it n slots, clear()
    leaves it with none, push and increase use the slot of the index of the cell without any
    check.  DaryModel.v and FibModel.v leave the number of slots out; here every heap policy is
    guarded by it, and the solver object of SolverModel.v carries the number of slots. *)
From Verif Require Import Base Num Grid FMMModel SolverModel.
Open Scope Z_scope.

(** fmdaryheap.hpp:51-54, 79-82 (fmfibheap.hpp:50-53, 78-81): handles_[c->getIndex()].  [cap] is
    handles_.size().  hpush cannot report a fault, so that an access outside the table leaves
    [None] behind: no run goes on with it, and [fmmt_compute] below turns it into UB. *)
Definition has_slot (cap i : Z) : bool := (0 <=? i) && (i <? cap).
Definition Guard {N : Num} (HO : HeapOps N) (cap : Z) : HeapOps N := {|
  heap := option (heap HO);
  hempty := Some (hempty HO);
  hpush := fun k i h => match h with
                        | Some b => if has_slot cap i then Some (hpush HO k i b) else None
                        | None => None
                        end;
  hincrease := fun k i h => match h with
                            | Some b => if has_slot cap i then b' <- hincrease HO k i b ;; Ok (Some b') else Fail UB
                            | None => Fail UB
                            end;
  hpop := fun k h => match h with
                     | Some b => match hpop HO k b with Some (i, b') => Some (i, Some b') | None => None end
                     | None => None
                     end;
  helems := fun h => match h with Some b => helems HO b | None => [] end
|}.

Section Table.
Context {N : Num} (HO : HeapOps N).

(** an FMM-like solver whose heap has a table of handles with [ft_cap] slots *)
Record fmmt_obj := mkFmmT { ft_o : fmm_obj HO; ft_cap : Z }.

(** fmm.hpp:67-73; the heap is default-constructed: no slots *)
Definition fmmt_new (h : HeurStrategy) : fmmt_obj := mkFmmT (fmm_new HO h) 0.
Definition fmmt_setEnvironment (o : fmmt_obj) (g : option (grid N)) : res (fmmt_obj * grid N) :=
  '(o1, g1) <- fmm_setEnvironment HO (ft_o o) g ;; Ok (mkFmmT o1 (ft_cap o), g1).
Definition fmmt_setPoints (o : fmmt_obj) (init : list Z) (goal : Z) : fmmt_obj :=
  mkFmmT (fmm_setPoints HO (ft_o o) init goal) (ft_cap o).

(** fmm.hpp:78-88: narrow_band_.setMaxSize(grid_->size()) *)
Definition fmmt_setup (o : fmmt_obj) (g : grid N) : res (fmmt_obj * grid N) :=
  '(o1, g1) <- fmm_setup HO (ft_o o) g ;; Ok (mkFmmT o1 (gsize g1), g1).

(** fmm.hpp:91-148 *)
Definition fmmt_compute (fuel : nat) (o : fmmt_obj) (g : grid N) : res (fmmt_obj * grid N) :=
  '(o1, g1) <- (if sv_setup (fo_s (ft_o o)) then Ok (o, g) else fmmt_setup o g) ;;
  let p := ft_o o1 in
  k <- goal_of (fo_s p) ;;
  '(st, _) <- fmm_run (Guard HO (ft_cap o1)) fuel (mkCfg (fo_strat p) (fo_dist p) (fo_coord p)) k (sv_init (fo_s p)) g1 (Some (fo_band p)) ;;
  match fs_h st with
  | Some b => Ok (mkFmmT (mkFmm (fo_s p) b (fo_strat p) (fo_dist p) (fo_pre p) (fo_coord p)) (ft_cap o1), fs_g st)
  | None => Fail UB
  end.

(** fmm.hpp:175-179 reset and 168-173 clear: narrow_band_.clear() empties the table as well *)
Definition fmmt_reset (o : fmmt_obj) (g : grid N) : res (fmmt_obj * grid N) :=
  '(o1, g1) <- fmm_reset HO (ft_o o) g ;; Ok (mkFmmT o1 0, g1).
Definition fmmt_clear (o : fmmt_obj) : fmmt_obj := mkFmmT (fmm_clear HO (ft_o o)) 0.
End Table.

Arguments mkFmmT {N HO}. Arguments ft_o {N HO}. Arguments ft_cap {N HO}.

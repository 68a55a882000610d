(** Grid.v - model of Cell, FMCell and nDGridMap. *)
From Verif Require Import Base Num.

(** ndgridmap/fmcell.h:33 *)
Inductive fmstate := OPEN | NARROW | FROZEN.

Definition fmstate_eqb (a b : fmstate) : bool :=
  match a, b with
  | OPEN, OPEN | NARROW, NARROW | FROZEN, FROZEN => true
  | _, _ => false
  end.

(** Shape part of nDGridMap: dimsize_ (line 356), d_ (371), ncells_ (362). *)
Record shape := mkShape { s_dims : list Z; s_d : list Z; s_n : Z }.

(** ndgridmap.hpp:82-86 (inside resize): ncells_ *= dimsize_[i]; d_[i] = ncells_
    with 32-bit wrap-around.  Returns (d_, ncells_). *)
Fixpoint partials (acc : Z) (dims : list Z) : list Z * Z :=
  match dims with
  | [] => ([], acc)
  | k :: r => let a := u32 (acc * k) in
              let '(ds, n) := partials a r in (a :: ds, n)
  end.

Definition mk_shape (dims : list Z) : shape :=
  let '(ds, n) := partials 1 dims in mkShape dims ds n.

(** ndgridmap.hpp:158-165: distance in the index of two neighbours along dim. *)
Definition stride (sh : shape) (dim : nat) : res Z :=
  match dim with
  | O => Ok 1
  | S k => vget (s_d sh) (Z.of_nat k)
  end.

(** ndgridmap.hpp:155-172 and 175-193 getNeighborsInDim: the candidates that are
    appended, in order.  [c1 >= 0] is always true for an unsigned.  An integer
    division by d_[dim] = 0 is UB. *)
Definition getNeighborsInDim (sh : shape) (idx : Z) (dim : nat) : res (list Z) :=
  st <- stride sh dim ;;
  dd <- vget (s_d sh) (Z.of_nat dim) ;;
  if dd =? 0 then Fail UB else
  let c1 := u32 (idx - st) in
  let c2 := u32 (idx + st) in
  Ok ((if c1 / dd =? idx / dd then [c1] else []) ++
      (if c2 / dd =? idx / dd then [c2] else [])).

(** ndgridmap.hpp:142-149 getNeighbors.  The result list stands for the first
    n_neighs entries of the array [neighs]; C03 shows the array (2*ndims
    entries) is never overrun. *)
Definition getNeighbors (sh : shape) (idx : Z) : res (list Z) :=
  foldM (fun acc dim => l <- getNeighborsInDim sh idx dim ;; Ok (acc ++ l))
        (seq 0 (length (s_dims sh))) [].

(** ndgridmap.hpp:203-206: the loop of idx2coord for i = ndims-2 .. 1;
    [ds] are d_[i-1], d_[i-2], ... d_[0] in the order they are used.  Produces
    the coordinates from the highest to the lowest. *)
Fixpoint idx2coord_loop (aux : Z) (ds : list Z) : res (list Z) :=
  match ds with
  | [] => Ok [aux]
  | dd :: r => if dd =? 0 then Fail UB else
               let c := aux / dd in
               cs <- idx2coord_loop (u32 (aux - u32 (c * dd))) r ;;
               Ok (c :: cs)
  end.

(** ndgridmap.hpp:196-210 idx2coord.  With ndims = 1 it reads d_[-1]. The first
    step (done apart in the code) has the same form as the loop body. *)
Definition idx2coord (sh : shape) (idx : Z) : res (list Z) :=
  match rev (s_d sh) with
  | [] | [_] => Fail UB
  | _ :: ds => cs <- idx2coord_loop idx ds ;; Ok (rev cs)
  end.

(** ndgridmap.hpp:219-220: idx += coords[i]*d_[i-1] for i = 1..ndims-1. *)
Fixpoint coord2idx_loop (idx : Z) (cs ds : list Z) : res Z :=
  match cs, ds with
  | [], _ => Ok idx
  | c :: cr, dd :: dr => coord2idx_loop (u32 (idx + u32 (c * dd))) cr dr
  | _ :: _, [] => Fail UB
  end.

(** ndgridmap.hpp:213-223 coord2idx (coords is a std::array of ndims entries). *)
Definition coord2idx (sh : shape) (cs : list Z) : res Z :=
  if negb (Z.of_nat (length cs) =? Z.of_nat (length (s_dims sh))) then Fail UB
  else match cs with
       | [] => Fail UB
       | c :: cr => coord2idx_loop c cr (s_d sh)
       end.

Section Cells.
Variable N : Num.

(** cell.h:64-71 and fmcell.h:64-72: value_, occupancy_ (= velocity), state_,
    bucket_, hValue_, index_. *)
Record cell := mkCell {
  c_val : N; c_occ : N; c_state : fmstate; c_bucket : Z; c_h : N; c_idx : Z
}.

(** fmcell.h:41 FMCell(); index_ is uninitialised there and always set by
    nDGridMap::resize right after, so it is a parameter here. *)
Definition fresh_cell (i : Z) : cell :=
  mkCell ninf n1 OPEN 0 n0 i.

(** cell.h:57-61 isOccupied *)
Definition isOccupied (c : cell) : bool := nltb (c_occ c) comp_margin.

(** fmcell.h:59 getTotalValue *)
Definition getTotalValue (c : cell) : N := nadd (c_val c) (c_h c).

(** src/ndgridmap/fmcell.cpp:30-37 setDefault (Cell::setDefault's value_ = -1
    is overwritten) *)
Definition setDefault (c : cell) : cell :=
  mkCell ninf (c_occ c) OPEN 0 n0 (c_idx c).

(** setters: cell.h:44-47, fmcell.h:45-49 *)
Definition with_val (c : cell) (v : N) :=
  mkCell v (c_occ c) (c_state c) (c_bucket c) (c_h c) (c_idx c).
Definition with_occ (c : cell) (v : N) :=
  mkCell (c_val c) v (c_state c) (c_bucket c) (c_h c) (c_idx c).
Definition with_state (c : cell) (s : fmstate) :=
  mkCell (c_val c) (c_occ c) s (c_bucket c) (c_h c) (c_idx c).
Definition with_bucket (c : cell) (b : Z) :=
  mkCell (c_val c) (c_occ c) (c_state c) b (c_h c) (c_idx c).
Definition with_h (c : cell) (h : N) :=
  mkCell (c_val c) (c_occ c) (c_state c) (c_bucket c) h (c_idx c).

(** nDGridMap<FMCell, ndims>, ndgridmap.hpp:352-382 (n_ and n_neighs are
    scratch; they are modelled in [getMinValueInDim_buf] below). *)
Record grid := mkGrid {
  g_sh : shape; g_leaf : N; g_cells : list cell; g_clean : bool; g_obs : list Z
}.

Definition with_cells (g : grid) (cs : list cell) : grid :=
  mkGrid (g_sh g) (g_leaf g) cs (g_clean g) (g_obs g).

(** ndgridmap.hpp:78-96 resize (cells are replaced, leafsize_ and occupied_ kept) *)
Definition resize (g : grid) (dims : list Z) : grid :=
  let sh := mk_shape dims in
  mkGrid sh (g_leaf g) (map fresh_cell (zseq (Z.to_nat (s_n sh)))) true (g_obs g).

(** ndgridmap.hpp:70-75 constructor *)
Definition new_grid (dims : list Z) (leaf : N) : grid :=
  resize (mkGrid (mkShape [] [] 0) leaf [] true []) dims.

(** ndgridmap.hpp:110-113 getCell / operator[]: unchecked in C++, UB out of range *)
Definition getCell (g : grid) (i : Z) : res cell := vget (g_cells g) i.

(** getCell(i).setX(...) : in-place update of one cell *)
Definition updCell (g : grid) (i : Z) (f : cell -> cell) : res grid :=
  c <- getCell g i ;;
  Ok (with_cells g (lset (g_cells g) (Z.to_nat i) (f c))).

Definition setArrivalTime (g : grid) (i : Z) (t : N) := updCell g i (fun c => with_val c t).
Definition setState (g : grid) (i : Z) (s : fmstate) := updCell g i (fun c => with_state c s).
Definition setVelocity (g : grid) (i : Z) (v : N) := updCell g i (fun c => with_occ c v).
Definition setHeuristicTime (g : grid) (i : Z) (h : N) := updCell g i (fun c => with_h c h).
Definition setBucket (g : grid) (i : Z) (b : Z) := updCell g i (fun c => with_bucket c b).

Definition getArrivalTime (g : grid) (i : Z) : res N := c <- getCell g i ;; Ok (c_val c).

(** ndgridmap.hpp:119-128 getMinValueInDim.  With one neighbour its value, with
    two the smaller one (the second on ties).  With no neighbour (dimension of
    size 1) the C++ code reads n_[0] and n_[1], which hold whatever an earlier
    call left there: modelled as UB here, and precisely by
    [getMinValueInDim_buf] below. *)
Definition getMinValueInDim (g : grid) (idx : Z) (dim : nat) : res N :=
  ns <- getNeighborsInDim (g_sh g) idx dim ;;
  match ns with
  | [] => Fail UB
  | [a] => getArrivalTime g a
  | a :: b :: _ => va <- getArrivalTime g a ;; vb <- getArrivalTime g b ;;
                   Ok (if nltb va vb then va else vb)
  end.

(** The same function with the member array n_ (ndgridmap.hpp:375) explicit:
    [buf] is its content before the call (None = never written). *)
Definition getMinValueInDim_buf (g : grid) (buf : option Z * option Z)
    (idx : Z) (dim : nat) : res (N * (option Z * option Z)) :=
  ns <- getNeighborsInDim (g_sh g) idx dim ;;
  let buf' := match ns with
              | [] => buf
              | [a] => (Some a, snd buf)
              | a :: b :: _ => (Some a, Some b)
              end in
  if Nat.eqb (length ns) 1 then
    match fst buf' with
    | Some a => v <- getArrivalTime g a ;; Ok (v, buf')
    | None => Fail UB
    end
  else
    match buf' with
    | (Some a, Some b) =>
        va <- getArrivalTime g a ;; vb <- getArrivalTime g b ;;
        Ok (if nltb va vb then va else vb, buf')
    | _ => Fail UB
    end.

(** ndgridmap.hpp:258-266 getMaxValue *)
Definition getMaxValue (g : grid) : N :=
  fold_left (fun m c => if negb (nisinf (c_val c)) && nltb m (c_val c)
                        then c_val c else m) (g_cells g) n0.

(** ndgridmap.hpp:342-349 getMaxSpeed *)
Definition getMaxSpeed (g : grid) : N :=
  fold_left (fun m c => if nltb m (c_occ c) then c_occ c else m) (g_cells g) n0.

(** ndgridmap.hpp:328-339 getAvgSpeed: ncells_ - nObs is an unsigned
    subtraction, converted to double. *)
Definition getAvgSpeed (g : grid) : N :=
  let '(sum, nobs) :=
    fold_left (fun '(s, k) c => if negb (isOccupied c) then (nadd s (c_occ c), k)
                                else (s, (k + 1)%Z)) (g_cells g) (n0, 0%Z) in
  ndiv sum (nofZ (u32 (s_n (g_sh g) - nobs))).

(** ndgridmap.hpp:275-278 setClean *)
Definition setClean (g : grid) (b : bool) : grid :=
  mkGrid (g_sh g) (g_leaf g) (g_cells g) b (g_obs g).

(** ndgridmap.hpp:281-288 clean *)
Definition clean (g : grid) : grid :=
  if negb (g_clean g)
  then mkGrid (g_sh g) (g_leaf g) (map setDefault (g_cells g)) true (g_obs g)
  else g.

(** ndgridmap.hpp:291-295 clear *)
Definition gclear (g : grid) : grid :=
  mkGrid (g_sh g) (g_leaf g) [] (g_clean g) [].

(** ndgridmap.hpp:252-255 size *)
Definition gsize (g : grid) : Z := s_n (g_sh g).

(** ndgridmap.hpp:107 setLeafSize, 307-316 setOccupiedCells *)
Definition setLeafSize (g : grid) (l : N) : grid :=
  mkGrid (g_sh g) l (g_cells g) (g_clean g) (g_obs g).
Definition setOccupiedCells (g : grid) (l : list Z) : grid :=
  mkGrid (g_sh g) (g_leaf g) (g_cells g) (g_clean g) l.

End Cells.

Arguments mkCell {N}. Arguments c_val {N}. Arguments c_occ {N}. Arguments c_state {N}.
Arguments c_bucket {N}. Arguments c_h {N}. Arguments c_idx {N}.
Arguments fresh_cell {N}. Arguments isOccupied {N}. Arguments getTotalValue {N}.
Arguments setDefault {N}. Arguments with_val {N}. Arguments with_occ {N}.
Arguments with_state {N}. Arguments with_bucket {N}. Arguments with_h {N}.
Arguments mkGrid {N}. Arguments g_sh {N}. Arguments g_leaf {N}. Arguments g_cells {N}.
Arguments g_clean {N}. Arguments g_obs {N}. Arguments with_cells {N}.
Arguments resize {N}. Arguments new_grid {N}. Arguments getCell {N}. Arguments updCell {N}.
Arguments setArrivalTime {N}. Arguments setState {N}. Arguments setVelocity {N}.
Arguments setHeuristicTime {N}. Arguments setBucket {N}. Arguments getArrivalTime {N}.
Arguments getMinValueInDim {N}. Arguments getMinValueInDim_buf {N}.
Arguments getMaxValue {N}. Arguments getMaxSpeed {N}. Arguments getAvgSpeed {N}.
Arguments setClean {N}. Arguments clean {N}. Arguments gclear {N}. Arguments gsize {N}.
Arguments setLeafSize {N}. Arguments setOccupiedCells {N}.

(** Spec.v - specification vocabulary, independent of the model.

    An n-dimensional box grid is a list of dimension sizes; a cell is a tuple of
    coordinates; cells are numbered with the first coordinate varying fastest. *)
From Coq Require Import ZArith List Reals Lra.
From Coq Require Import Relations.Relation_Operators.
Import ListNotations.
Open Scope Z_scope.

(** number of cells of a box *)
Definition box_size (dims : list Z) : Z := fold_right Z.mul 1 dims.

(** a proper box: every dimension has at least one cell *)
Definition proper (dims : list Z) : Prop := Forall (fun k => 1 <= k) dims.

(** coordinates inside the box *)
Definition in_box (dims cs : list Z) : Prop := Forall2 (fun k c => 0 <= c < k) dims cs.

(** number of the cell with coordinates cs *)
Fixpoint cell_number (dims cs : list Z) : Z :=
  match dims, cs with
  | k :: ks, c :: cr => c + k * cell_number ks cr
  | _, _ => 0
  end.

(** two coordinate tuples that differ by exactly one in exactly one dimension *)
Inductive unit_step : list Z -> list Z -> Prop :=
| us_here c d r : (d = c + 1 \/ c = d + 1) -> unit_step (c :: r) (d :: r)
| us_later c r s : unit_step r s -> unit_step (c :: r) (c :: s).

(** grid adjacency between cell numbers *)
Definition adjacent (dims : list Z) (i j : Z) : Prop :=
  exists cs ds, in_box dims cs /\ in_box dims ds /\ unit_step cs ds /\
                cell_number dims cs = i /\ cell_number dims ds = j.

(** adjacency along one given dimension *)
Inductive unit_step_at : nat -> list Z -> list Z -> Prop :=
| usa_here c d r : (d = c + 1 \/ c = d + 1) -> unit_step_at O (c :: r) (d :: r)
| usa_later n c r s : unit_step_at n r s -> unit_step_at (S n) (c :: r) (c :: s).

Definition adjacent_in (dims : list Z) (n : nat) (i j : Z) : Prop :=
  exists cs ds, in_box dims cs /\ in_box dims ds /\ unit_step_at n cs ds /\
                cell_number dims cs = i /\ cell_number dims ds = j.

(** sum of a list of reals *)
Definition Rsum (l : list R) : R := fold_right Rplus 0%R l.

(** ** The discretised Eikonal equation

    With per-dimension upwind values [ts], slowness*spacing [f] and a candidate
    time [u], the upwind difference equation is  upwind_sum ts u = f^2. *)
Definition upwind_sum (ts : list R) (u : R) : R :=
  Rsum (map (fun t => Rsqr (Rmax (u - t) 0)) ts).

(** ** Solutions of the discretised Eikonal equation on a grid

    A time map gives each cell number a time, [None] meaning not reached. *)
Definition time_map := Z -> option R.

(** [m] is the smallest time among the neighbours of [i] along dimension [d]
    ([None]: no neighbour along [d] is reached) *)
Definition dim_min (dims : list Z) (T : time_map) (i : Z) (d : nat) (m : option R) : Prop :=
  match m with
  | None => forall j, adjacent_in dims d i j -> T j = None
  | Some r => (exists j, adjacent_in dims d i j /\ T j = Some r) /\
              (forall j s, adjacent_in dims d i j -> T j = Some s -> (r <= s)%R)
  end.

(** the minima of all dimensions, in order *)
Definition minima (dims : list Z) (T : time_map) (i : Z) (ms : list (option R)) : Prop :=
  Forall2 (dim_min dims T i) (seq 0 (length dims)) ms.

(** the finite ones *)
Definition somes {A} (l : list (option A)) : list A :=
  flat_map (fun o => match o with Some x => [x] | None => [] end) l.

(** [T] is a super-solution: every reached cell is a source at time 0, or a free
    cell whose time is large enough for its neighbours. *)
Record super_solution (dims : list Z) (src fr : Z -> Prop) (f : Z -> R) (T : time_map) : Prop := {
  sup_src : forall i, src i -> T i = Some 0%R;
  sup_free : forall i t ms, T i = Some t -> ~ src i -> minima dims T i ms ->
               fr i /\ (f i * f i <= upwind_sum (somes ms) t)%R
}.

(** [U] is a sub-solution up to [delta]: no free cell is later than its
    neighbours force it to be, plus delta. *)
Record sub_solution (dims : list Z) (src fr : Z -> Prop) (f : Z -> R) (delta : R) (U : time_map) : Prop := {
  sub_src : forall i, src i -> U i = Some 0%R;
  sub_free : forall i t ms, 0 <= i < box_size dims -> fr i -> ~ src i -> U i = Some t ->
               minima dims U i ms -> (upwind_sum (somes ms) (t - delta) < f i * f i)%R;
  sub_inf : forall i j, 0 <= i < box_size dims -> fr i -> ~ src i -> U i = None ->
               adjacent dims i j -> U j = None
}.

(** A solution up to [delta]: the upwind equation holds for every reached free
    cell within delta in time, sources are at 0, unreached free cells have no reached
    neighbour, nothing else is reached, and no time is negative. *)
Definition solution dims src fr f delta (T : time_map) : Prop :=
  super_solution dims src fr f T /\ sub_solution dims src fr f delta T /\
  (forall i t, T i = Some t -> 0 <= t)%R.

(** The exact solution: the upwind equation holds without tolerance. *)
Record exact_solution (dims : list Z) (src fr : Z -> Prop) (f : Z -> R) (T : time_map) : Prop := {
  ex_src : forall i, src i -> T i = Some 0%R;
  ex_eq : forall i t ms, T i = Some t -> ~ src i -> minima dims T i ms ->
            fr i /\ upwind_sum (somes ms) t = (f i * f i)%R;
  ex_inf : forall i j, 0 <= i < box_size dims -> fr i -> ~ src i -> T i = None ->
            adjacent dims i j -> T j = None;
  ex_nonneg : forall i t, T i = Some t -> (0 <= t)%R;
  ex_range : forall i t, T i = Some t -> 0 <= i < box_size dims
}.

(** connected to a source by a path of free cells *)
Inductive reachable (dims : list Z) (src fr : Z -> Prop) : Z -> Prop :=
| reach_src i : src i -> reachable dims src fr i
| reach_step i j : reachable dims src fr i -> adjacent dims i j -> fr j -> reachable dims src fr j.

(** strictly below a cell's own time ([None] = infinity) *)
Definition lower_than (own : option R) (r : R) : bool :=
  match own with None => true | Some o => if Rlt_dec r o then true else false end.

(** the minima a cell with time [own] can be updated from *)
Definition upwind_values (own : option R) (ms : list (option R)) : list R :=
  filter (lower_than own) (somes ms).

(** ** Sweeps

    a combination of sweep directions: +1 (increasing) or -1 (decreasing) per dimension *)
Definition is_dir (n : nat) (l : list Z) : Prop := length l = n /\ Forall (fun x => x = 1 \/ x = -1) l.

(** [cs] comes before [ds] in a sweep with directions [incs]: compare the last
    coordinate first, in its direction, the first coordinate varying fastest *)
Fixpoint sweep_before (incs cs ds : list Z) : Prop :=
  match incs, cs, ds with
  | i :: is_, c :: cr, d :: dr =>
      sweep_before is_ cr dr \/ (cr = dr /\ if i =? 1 then c < d else d < c)
  | _, _, _ => False
  end.

(** Obs.v - what a user observes of a grid of the model.  Used by the theorem
    statements only. *)
From Verif Require Import Base Num Grid Spec.

(** every dimension has at least two cells *)
Definition dims2 (dims : list Z) : Prop := Forall (fun k => 2 <= k) dims.

(** shapes the index arithmetic supports (C01-C05) *)
Definition shape_ok (dims : list Z) : Prop := dims2 dims /\ 2 * box_size dims <= 4294967296.

Section Obs.
Context {N : Num}.

(** a grid of the given dimensions holding all its cells *)
Definition grid_ok (dims : list Z) (g : grid N) : Prop :=
  g_sh g = mk_shape dims /\ Z.of_nat (length (g_cells g)) = box_size dims.

(** cell i has arrival time t *)
Definition time_is (g : grid N) (i : Z) (t : N) : Prop := getArrivalTime g i = Ok t.

(** cell i exists and is free / is an obstacle *)
Definition free (g : grid N) (i : Z) : Prop :=
  exists c, getCell g i = Ok c /\ isOccupied c = false.
Definition obstacle (g : grid N) (i : Z) : Prop :=
  exists c, getCell g i = Ok c /\ isOccupied c = true.

(** a grid as a new grid or clean() leaves it: every time infinite, every cell
    OPEN, no heuristic value; velocities are arbitrary *)
Definition clean_grid (dims : list Z) (g : grid N) : Prop :=
  grid_ok dims g /\
  forall i c, getCell g i = Ok c -> c_val c = ninf /\ c_state c = OPEN /\ c_h c = n0.

(** distinct initial points inside the grid *)
Definition points_ok (dims : list Z) (init : list Z) : Prop :=
  NoDup init /\ forall i, In i init -> 0 <= i < box_size dims.

(** no free initial point is next to another initial point *)
Definition separated (dims : list Z) (g : grid N) (init : list Z) : Prop :=
  forall i j, In i init -> In j init -> adjacent dims i j -> ~ free g j.

End Obs.

From Coq Require Import Reals.
From Verif Require Import NumXR.

(** times of an exact grid: finite times, [None] otherwise *)
Definition times (g : grid XR) : time_map :=
  fun i => match getArrivalTime g i with Ok (XFin r) => Some r | _ => None end.

(** every stored time is infinite or a non-negative real (no NaN, no -inf) *)
Definition times_ok (g : grid XR) : Prop :=
  forall i c, getCell g i = Ok c -> c_val c = XPInf \/ exists r, c_val c = XFin r /\ (0 <= r)%R.

(** the spacing is a positive real and every velocity a real *)
Definition reals_ok (g : grid XR) : Prop :=
  (exists h, g_leaf g = XFin h /\ (0 < h)%R) /\
  (forall i c, getCell g i = Ok c -> exists v, c_occ c = XFin v).

(** spacing divided by velocity of a cell *)
Definition slow (g : grid XR) (i : Z) : R :=
  match g_leaf g, getCell g i with
  | XFin h, Ok c => match c_occ c with XFin v => (h / v)%R | _ => 0%R end
  | _, _ => 0%R
  end.


(** DescentSpec.v - specification of gradient descent over a map of arrival times,
    independent of the model. *)
From Coq Require Import ZArith List Reals Lra.
From Verif Require Import Spec.
Import ListNotations.
Open Scope Z_scope.

(** the coordinates [cs] moved by [e] along dimension [d] *)
Definition shifted (cs : list Z) (d : nat) (e : Z) : list Z :=
  firstn d cs ++ (nth d cs 0 + e) :: skipn (S d) cs.

(** central difference of two times; [None] is an infinite time, and a one-sided infinite
    difference counts as one unit away from the infinite side *)
Definition slope (behind ahead : option R) : option R :=
  match behind, ahead with
  | Some a, Some b => Some ((b - a) / 2)%R
  | None, Some _ => Some (-1)%R
  | Some _, None => Some 1%R
  | None, None => None
  end.

Definition slope_at (dims : list Z) (T : time_map) (cs : list Z) (d : nat) : option R :=
  slope (T (cell_number dims (shifted cs d (-1)))) (T (cell_number dims (shifted cs d 1))).

(** [M] is the largest absolute value in the list *)
Definition max_abs (gs : list R) (M : R) : Prop :=
  (forall r, In r gs -> (Rabs r <= M)%R) /\ exists r, In r gs /\ Rabs r = M.

(** the cell whose centre is nearest to the point, halves rounded up *)
Definition nearest (p : list R) (cs : list Z) : Prop :=
  Forall2 (fun x c => IZR c - 1 / 2 <= x < IZR c + 1 / 2)%R p cs.

(** one step of the descent: against the slopes, scaled so that the largest component has
    length [s] *)
Definition descent_step (dims : list Z) (T : time_map) (s : R) (p : list R) (cs : list Z) (p' : list R) (cs' : list Z) : Prop :=
  T (cell_number dims cs) <> Some 0%R /\
  exists gs M,
    Forall2 (fun d r => slope_at dims T cs d = Some r) (seq 0 (length dims)) gs /\
    max_abs gs M /\ (0 < M)%R /\
    p' = map (fun xr => fst xr - s * snd xr / M)%R (combine p gs) /\
    nearest p' cs'.

(** points and cells visited from the centre of cell [cs0], oldest first *)
Inductive descent (dims : list Z) (T : time_map) (s : R) (cs0 : list Z) : list (list R) -> list (list Z) -> Prop :=
| descent_start : descent dims T s cs0 [map IZR cs0] [cs0]
| descent_next pts p cells cs p' cs' :
    descent dims T s cs0 (pts ++ [p]) (cells ++ [cs]) ->
    descent_step dims T s p cs p' cs' ->
    descent dims T s cs0 (pts ++ [p; p']) (cells ++ [cs; cs']).

(** a cell away from the borders *)
Definition interior (dims cs : list Z) : Prop := Forall2 (fun k c => 0 < c < k - 1) dims cs.

(** a cell where the direction of descent is undefined: it is not at time 0, and either both
    neighbours along some dimension are infinite or all slopes vanish *)
Definition stuck (dims : list Z) (T : time_map) (cs : list Z) : Prop :=
  T (cell_number dims cs) <> Some 0%R /\
  ((exists d, (d < length dims)%nat /\ slope_at dims T cs d = None) \/
   (forall d, (d < length dims)%nat -> slope_at dims T cs d = Some 0%R)).

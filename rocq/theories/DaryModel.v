(** DaryModel.v - FMDaryHeap (include/fast_methods/datastructures/fmdaryheap.hpp):
    boost::heap::d_ary_heap with arity 2, mutable, comparator FMCompare, plus the
    table of handles indexed by cell.

    An entry of the heap is a pair (cell, identity): the identity stands for the
    list node a boost handle points to; a new one is made by every push.  A handle
    whose node is gone is stale: using it is undefined behaviour.
    Boost itself is not part of the repository; push/pop/increase/update below follow
    boost/heap/d_ary_heap.hpp (siftup, siftdown, top_child_index).
    Simplification: the bounds of handles_ (setMaxSize) are not modelled here but
    in HandleModel.v. *)
From Verif Require Import Base Num Grid FMMModel HeapRef.

Notation entry := (prod Z Z).

Section Dary.
Context {N : Num}.
Implicit Types (k : Z -> N).

Definition ent (q : list entry) (i : nat) : entry := nth i q (0, 0).
Definition swap (q : list entry) (i j : nat) : list entry := lset (lset q i (ent q j)) j (ent q i).

(** d_ary_heap::operator() through FMCompare (fmcompare.hpp:30-32) *)
Definition dless k (a b : entry) : bool := fmcompare k (fst a) (fst b).

(** d_ary_heap::siftup *)
Fixpoint dsiftup (fuel : nat) k (q : list entry) (i : nat) : list entry :=
  match fuel with
  | O => q
  | S f =>
      match i with
      | O => q
      | S p => let parent := Nat.div p 2 in
               if dless k (ent q parent) (ent q i)
               then dsiftup f k (swap q parent i) parent
               else q
      end
  end.

(** d_ary_heap::top_child_index: std::max_element over the one or two children *)
Definition top_child k (q : list entry) (i : nat) : nat :=
  if Nat.ltb (2 * i + 2) (length q)
  then if dless k (ent q (2 * i + 1)) (ent q (2 * i + 2)) then (2 * i + 2)%nat else (2 * i + 1)%nat
  else (2 * i + 1)%nat.

(** d_ary_heap::siftdown *)
Fixpoint dsiftdown (fuel : nat) k (q : list entry) (i : nat) : list entry :=
  match fuel with
  | O => q
  | S f =>
      if Nat.ltb (2 * i + 1) (length q) then                       (* not_leaf *)
        let c := top_child k q i in
        if negb (dless k (ent q c) (ent q i)) then dsiftdown f k (swap q c i) c else q
      else q
  end.

(** position of the node a handle points to *)
Fixpoint pos (u : Z) (q : list entry) : option nat :=
  match q with
  | [] => None
  | (_, w) :: r => if w =? u then Some O else option_map S (pos u r)
  end.

(** heap_, handles_ (fmdaryheap.hpp:96-100); [dh_next] supplies identities *)
Record dheap := mkDh { dh_q : list entry; dh_handles : list (Z * Z); dh_next : Z }.

Fixpoint lookup (i : Z) (t : list (Z * Z)) : option Z :=
  match t with
  | [] => None
  | (j, u) :: r => if j =? i then Some u else lookup i r
  end.

(** fmdaryheap.hpp:51-54 push *)
Definition d_push k (i : Z) (h : dheap) : dheap :=
  let q := dh_q h ++ [(i, dh_next h)] in
  mkDh (dsiftup (length q) k q (length (dh_q h))) ((i, dh_next h) :: dh_handles h) (dh_next h + 1).

(** fmdaryheap.hpp:57-62 popMinIdx: top, then pop = swap front and back, drop the back,
    sift the front down *)
Definition d_pop k (h : dheap) : option (Z * dheap) :=
  match dh_q h with
  | [] => None
  | e :: _ =>
      let q1 := swap (dh_q h) 0 (length (dh_q h) - 1) in
      let q2 := removelast q1 in
      Some (fst e, mkDh (dsiftdown (length q2) k q2 0) (dh_handles h) (dh_next h))
  end.

(** fmdaryheap.hpp:79-82 increase: siftup from the node of the handle *)
Definition d_increase k (i : Z) (h : dheap) : res dheap :=
  match lookup i (dh_handles h) with
  | None => Fail UB
  | Some u => match pos u (dh_q h) with
              | None => Fail UB
              | Some p => Ok (mkDh (dsiftup (length (dh_q h)) k (dh_q h) p) (dh_handles h) (dh_next h))
              end
  end.

(** fmdaryheap.hpp:71-74 update; d_ary_heap::update: at the root sift down, otherwise up
    when the parent has lower priority and down when not *)
Definition d_update k (i : Z) (h : dheap) : res dheap :=
  match lookup i (dh_handles h) with
  | None => Fail UB
  | Some u =>
      match pos u (dh_q h) with
      | None => Fail UB
      | Some p =>
          let q := dh_q h in
          let down := dsiftdown (length q) k q p in
          Ok (mkDh (match p with
                    | O => down
                    | S m => if dless k (ent q (Nat.div m 2)) (ent q p) then dsiftup (length q) k q p else down
                    end) (dh_handles h) (dh_next h))
      end
  end.

Definition DaryHeap : HeapOps N := {|
  heap := dheap;
  hempty := mkDh [] [] 0;
  hpush := d_push;
  hincrease := d_increase;
  hpop := d_pop;
  helems := fun h => map fst (dh_q h)
|}.

End Dary.

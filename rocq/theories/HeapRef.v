(** HeapRef.v - two concrete heaps.

    [RefHeap]: a reference min-heap (unsorted list, pop removes the first
    element of minimal key).  It shows the heap laws are satisfiable and is used
    to run the model.  Ties are broken by insertion order; theorems about
    FMM hold for every lawful heap.

    [StdHeap]: FMPriorityQueue (datastructures/fmpriorityqueue.hpp) =
    boost::heap::priority_queue = std::vector + std::push_heap/std::pop_heap of
    libstdc++, comparator FMCompare. *)
From Verif Require Import Base Num Grid FMMModel.

Section Ref.
Context {N : Num}.

(** first element whose key is not above any later one *)
Fixpoint min_elem (k : Z -> N) (x : Z) (l : list Z) : Z :=
  match l with
  | [] => x
  | y :: r => if nltb (k y) (k x) then min_elem k y r else min_elem k x r
  end.

Fixpoint remove_first (x : Z) (l : list Z) : list Z :=
  match l with
  | [] => []
  | y :: r => if y =? x then r else y :: remove_first x r
  end.

Definition ref_pop (k : Z -> N) (h : list Z) : option (Z * list Z) :=
  match h with
  | [] => None
  | x :: r => let m := min_elem k x r in Some (m, remove_first m h)
  end.

Definition RefHeap : HeapOps N := {|
  heap := list Z;
  hempty := [];
  hpush := fun _ i h => h ++ [i];
  hincrease := fun _ i h => if existsb (Z.eqb i) h then Ok h else Fail UB;
  hpop := ref_pop;
  helems := fun h => h
|}.

(** FMCompare (fmcompare.hpp:30-32): c1->getTotalValue() > c2->getTotalValue() *)
Definition fmcompare (k : Z -> N) (a b : Z) : bool := nltb (k b) (k a).

Definition at_ (h : list Z) (i : nat) : Z := nth i h 0.

(** libstdc++ bits/stl_heap.h __push_heap: sift [v] up from [hole] *)
Fixpoint sift_up (fuel : nat) (k : Z -> N) (h : list Z) (hole : nat) (v : Z) : list Z :=
  match fuel with
  | O => lset h hole v
  | S f =>
      match hole with
      | O => lset h O v
      | S p => let parent := Nat.div p 2 in
               if fmcompare k (at_ h parent) v
               then sift_up f k (lset h hole (at_ h parent)) parent v
               else lset h hole v
      end
  end.

(** std::push_heap after vector::push_back *)
Definition std_push (k : Z -> N) (i : Z) (h : list Z) : list Z :=
  sift_up (S (length h)) k (h ++ [i]) (length h) i.

(** __adjust_heap: move the larger child up until a leaf, then sift v up.
    [len] is the heap length without the removed last element. *)
Fixpoint adjust_down (fuel : nat) (k : Z -> N) (h : list Z) (hole len : nat) (v : Z) : list Z :=
  match fuel with
  | O => sift_up (S len) k h hole v
  | S f =>
      let c2 := (2 * (hole + 1))%nat in
      if Nat.ltb c2 len then
        let child := if fmcompare k (at_ h c2) (at_ h (c2 - 1)) then (c2 - 1)%nat else c2 in
        adjust_down f k (lset h hole (at_ h child)) child len v
      else if Nat.eqb c2 len then
        sift_up (S len) k (lset h hole (at_ h (c2 - 1))) (c2 - 1) v
      else sift_up (S len) k h hole v
  end.

(** std::pop_heap + vector::pop_back *)
Definition std_pop (k : Z -> N) (h : list Z) : option (Z * list Z) :=
  match h with
  | [] => None
  | x :: _ =>
      let len := (length h - 1)%nat in
      let v := at_ h len in
      let h' := firstn len h in
      Some (x, match len with
               | O => []
               | _ => adjust_down (S len) k h' 0 len v
               end)
  end.

(** fmpriorityqueue.hpp:44-62: increase pushes the element again *)
Definition StdHeap : HeapOps N := {|
  heap := list Z;
  hempty := [];
  hpush := std_push;
  hincrease := fun k i h => Ok (std_push k i h);
  hpop := std_pop;
  helems := fun h => h
|}.

End Ref.

(** FibModel.v - FMFibHeap (include/fast_methods/datastructures/fmfibheap.hpp):
    boost::heap::fibonacci_heap with comparator FMCompare, plus the table of handles
    indexed by cell.

    An entry is a pair (cell, identity); the identity stands for the node a boost handle
    points to, a new one is made by every push; a handle whose node is gone is stale and
    using it is undefined behaviour.  Boost itself is not part of the repository: the
    functions below follow boost/heap/fibonacci_heap.hpp.  Parent pointers are the nesting
    of the tree; splicing is list surgery; [ft_cnt] is the size counter of the intrusive
    child list, which boost uses as the rank.
    Simplifications: the table of consolidate() has as many slots as needed (boost: 64, one
    per bit of size_t); the bounds of handles_ (setMaxSize) are not modelled here but
    in HandleModel.v. *)
From Verif Require Import Base Num Grid FMMModel HeapRef DaryModel.

(** marked_heap_node: value, mark, size of the child list, children *)
Inductive ftree := FNode (e : entry) (mk : bool) (cnt : Z) (ch : list ftree).

Definition ft_e (t : ftree) : entry := let 'FNode e _ _ _ := t in e.
Definition ft_mk (t : ftree) : bool := let 'FNode _ m _ _ := t in m.
Definition ft_cnt (t : ftree) : Z := let 'FNode _ _ c _ := t in c.
Definition ft_ch (t : ftree) : list ftree := let 'FNode _ _ _ l := t in l.

(** all entries *)
Fixpoint ents (t : ftree) : list entry :=
  let 'FNode e _ _ ch := t in e :: (fix go (l : list ftree) := match l with [] => [] | c :: r => ents c ++ go r end) ch.
Fixpoint fents (l : list ftree) : list entry := match l with [] => [] | c :: r => ents c ++ fents r end.

(** one step upwards from a node: its parent (entry, mark, size counter) and the siblings
    of that parent on either side *)
Record up := mkUp { up_e : entry; up_mk : bool; up_cnt : Z; up_l : list ftree; up_r : list ftree }.

(** put the list [l] back as the children of the node described by [ups] *)
Fixpoint plug (l : list ftree) (ups : list up) : list ftree :=
  match ups with
  | [] => l
  | u :: r => plug (up_l u ++ FNode (up_e u) (up_mk u) (up_cnt u) l :: up_r u) r
  end.

(** a node, its siblings on either side and the way up *)
Record loc := mkLoc { lo_t : ftree; lo_l : list ftree; lo_r : list ftree; lo_ups : list up }.

(** the place of the node [u], in a tree / in a list of siblings *)
Fixpoint floc (u : Z) (t : ftree) (l r : list ftree) (ups : list up) : option loc :=
  let 'FNode e m c ch := t in
  if snd e =? u then Some (mkLoc t l r ups)
  else (fix go (pre post : list ftree) :=
          match post with
          | [] => None
          | x :: q => match floc u x pre q (mkUp e m c l r :: ups) with
                      | Some y => Some y
                      | None => go (pre ++ [x]) q
                      end
          end) [] ch.
Fixpoint flocs (u : Z) (pre post : list ftree) : option loc :=
  match post with
  | [] => None
  | x :: q => match floc u x pre q [] with Some y => Some y | None => flocs u (pre ++ [x]) q end
  end.

Section Fib.
Context {N : Num}.
Implicit Types (k : Z -> N).

(** consolidate: [other] becomes the last child of [n] *)
Definition link (n other : ftree) : ftree := let 'FNode e m c ch := n in FNode e m (c + 1) (ch ++ [other]).

(** the first tree whose size counter is [r], with its neighbours *)
Fixpoint by_rank (r : Z) (pre l : list ftree) : option (list ftree * ftree * list ftree) :=
  match l with
  | [] => None
  | t :: q => if ft_cnt t =? r then Some (pre, t, q) else by_rank r (pre ++ [t]) q
  end.

(** consolidate, inner loop: while another processed root has the rank of [n], one of the
    two becomes a child of the other.  The processed roots are [b], [n], [a], in the order
    of the root list: every processed root other than [n] is in the table aux. *)
Fixpoint merge_loop (fuel : nat) k (b : list ftree) (n : ftree) (a : list ftree) : list ftree * ftree * list ftree :=
  match fuel with
  | O => (b, n, a)
  | S f =>
      match by_rank (ft_cnt n) [] b with
      | Some (b1, o, b2) =>
          if dless k (ft_e n) (ft_e o) then merge_loop f k b1 (link o n) (b2 ++ a)
          else merge_loop f k (b1 ++ b2) (link n o) a
      | None =>
          match by_rank (ft_cnt n) [] a with
          | Some (a1, o, a2) =>
              if dless k (ft_e n) (ft_e o) then merge_loop f k (b ++ a1) (link o n) a2
              else merge_loop f k b (link n o) (a1 ++ a2)
          | None => (b, n, a)
          end
      end
  end.

(** consolidate, outer loop over the root list; [top] is top_element *)
Fixpoint consolidate k (done todo : list ftree) (top : entry) : list ftree * entry :=
  match todo with
  | [] => (done, top)
  | t :: q =>
      let '(b, n, a) := merge_loop (length done) k done t [] in
      consolidate k (b ++ n :: a) q (if negb (dless k (ft_e n) top) then ft_e n else top)
  end.

(** heap_ (roots, top_element), handles_ (fmfibheap.hpp:98-102); [fh_next] supplies identities *)
Record fheap := mkFh { fh_roots : list ftree; fh_top : option entry; fh_handles : list (Z * Z); fh_next : Z }.

Definition f_entries (h : fheap) : list entry := fents (fh_roots h).

(** consolidate() on a root list: an empty one leaves nothing to do *)
Definition consolidated k (roots : list ftree) (h : fheap) : fheap :=
  match roots with
  | [] => mkFh [] None (fh_handles h) (fh_next h)
  | t :: _ => let '(r, top) := consolidate k [] roots (ft_e t) in mkFh r (Some top) (fh_handles h) (fh_next h)
  end.

(** fmfibheap.hpp:50-53 push; fibonacci_heap::push: the new node goes in front of the roots *)
Definition f_push k (i : Z) (h : fheap) : fheap :=
  let e := (i, fh_next h) in
  mkFh (FNode e false 0 [] :: fh_roots h)
       (match fh_top h with
        | None => Some e
        | Some t => if dless k t e then Some e else Some t
        end)
       ((i, fh_next h) :: fh_handles h) (fh_next h + 1).

(** fmfibheap.hpp:56-61 popMinIdx: top, then pop = unlink top_element, add its children to
    the roots, consolidate.  Unlinking takes the node out of whatever list it is in, but is
    booked on the size of the root list: the counter of a parent would stay as it is. *)
Definition f_pop k (h : fheap) : option (Z * fheap) :=
  match fh_top h with
  | None => None
  | Some e =>
      match flocs (snd e) [] (fh_roots h) with
      | None => None
      | Some p => Some (fst e, consolidated k (plug (lo_l p ++ lo_r p) (lo_ups p) ++ ft_ch (lo_t p)) h)
      end
  end.

Definition set_mk (m : bool) (t : ftree) : ftree := let 'FNode e _ c l := t in FNode e m c l.

(** cascading_cut(p), where p has siblings [l], [r] and the way up [ups]; [acc] is what was
    cut so far, the latest cut first: cut() puts a node in front of the roots *)
Fixpoint cascading_cut (p : ftree) (l r : list ftree) (ups : list up) (acc : list ftree) : list ftree :=
  match ups with
  | [] => acc ++ (l ++ p :: r)
  | u :: q =>
      if up_mk u
      then cascading_cut (FNode (up_e u) (up_mk u) (up_cnt u - 1) (l ++ r)) (up_l u) (up_r u) q (set_mk false p :: acc)
      else acc ++ plug (l ++ p :: r) (mkUp (up_e u) true (up_cnt u) (up_l u) (up_r u) :: q)
  end.

(** fibonacci_heap::increase(handle) *)
Definition f_increase_roots k (p : loc) : list ftree :=
  match lo_ups p with
  | [] => lo_l p ++ lo_t p :: lo_r p
  | u :: q =>
      if dless k (up_e u) (ft_e (lo_t p))
      then cascading_cut (FNode (up_e u) (up_mk u) (up_cnt u - 1) (lo_l p ++ lo_r p)) (up_l u) (up_r u) q [set_mk false (lo_t p)]
      else plug (lo_l p ++ lo_t p :: lo_r p) (u :: q)
  end.
Definition f_increase_at k (p : loc) (h : fheap) : fheap :=
  let e := ft_e (lo_t p) in
  mkFh (f_increase_roots k p)
       (match fh_top h with
        | None => None
        | Some t => if dless k t e then Some e else Some t
        end) (fh_handles h) (fh_next h).

(** fibonacci_heap::update(handle), which decrease(handle) calls: a node that has a parent
    moves in front of the roots, its children to the end of the roots, then consolidate *)
Definition f_update_at k (p : loc) (h : fheap) : fheap :=
  let 'FNode e m _ ch := lo_t p in
  let roots :=
    match lo_ups p with
    | [] => lo_l p ++ FNode e m 0 [] :: lo_r p
    | u :: q => FNode e m 0 [] :: plug (lo_l p ++ lo_r p) (mkUp (up_e u) (up_mk u) (up_cnt u - 1) (up_l u) (up_r u) :: q)
    end in
  consolidated k (roots ++ ch) h.

Definition f_handle (i : Z) (h : fheap) : option loc :=
  match lookup i (fh_handles h) with None => None | Some u => flocs u [] (fh_roots h) end.

(** fmfibheap.hpp:78-81 increase *)
Definition f_increase k (i : Z) (h : fheap) : res fheap :=
  match f_handle i h with None => Fail UB | Some p => Ok (f_increase_at k p h) end.

(** fmfibheap.hpp:70-73 update; fibonacci_heap::update(handle, v): increase when the stored
    value compares below v, decrease when not.  Both are the same cell. *)
Definition f_update k (i : Z) (h : fheap) : res fheap :=
  match f_handle i h with
  | None => Fail UB
  | Some p => Ok (if dless k (ft_e (lo_t p)) (i, 0) then f_increase_at k p h else f_update_at k p h)
  end.

(** fmfibheap.hpp:84-88 clear *)
Definition f_clear (h : fheap) : fheap := mkFh [] None [] (fh_next h).

Definition FibHeap : HeapOps N := {|
  heap := fheap;
  hempty := mkFh [] None [] 0;
  hpush := f_push;
  hincrease := f_increase;
  hpop := f_pop;
  helems := fun h => map fst (f_entries h)
|}.

End Fib.

(** UntidyModel.v - model of the untidy priority queue
    (include/fast_methods/thirdparty/untidy_queue.hpp, datastructures/fmuntidyqueue.hpp)
    and of UFMM (fm/ufmm.hpp). *)
From Verif Require Import Base Num Grid Eikonal FMMModel.

Section Untidy.
Context {N : Num}.
Local Open Scope num_scope.

(** untidy_queue.hpp:54-60; a bucket is a std::list, head = front *)
Record uq := mkUq {
  uq_tab : list (list Z); uq_size : Z; uq_nb : Z; uq_t0 : N; uq_i0 : Z;
  uq_delta : N; uq_inc : N
}.

(** untidy_queue.hpp:65-71 *)
Definition uq_new (size : Z) (inc : N) : uq :=
  mkUq (repeat [] (Z.to_nat size)) size 0 n0 0 (inc / nofZ size) inc.

(** untidy_queue.hpp:81-84 *)
Definition uq_empty (q : uq) : bool := (uq_nb q =? 0)%Z.

(** static_cast<unsigned>(floor(x)) (lines 107, 180): UB unless in range *)
Definition cast_floor_u32 (x : N) : res Z :=
  match nfloor x with
  | Some z => if ((0 <=? z) && (z <? 4294967296))%Z then Ok z else Fail UB
  | None => Fail UB
  end.

(** lines 107-113 and 180-186: target bucket of time t.  [i >= 0] is always
    true for an unsigned, the else branch (114-133, 187-206) is dead code. *)
Definition uq_bucket (q : uq) (t : N) : res Z :=
  i <- cast_floor_u32 ((t - uq_t0 q) * nofZ (uq_size q) / uq_inc q) ;;
  if (uq_size q =? 0)%Z then Fail UB else
  let i := if (uq_size q <=? i)%Z then (uq_size q - 1)%Z else i in
  Ok (u32 (i + uq_i0 q) mod uq_size q)%Z.

(** untidy_queue.hpp:86-139 push: returns the bucket *)
Definition uq_push (q : uq) (e : Z) (t : N) : res (uq * Z) :=
  '(q1, i) <- (if uq_empty q
               then Ok (mkUq (uq_tab q) (uq_size q) (uq_nb q) t 0 (uq_delta q) (uq_inc q), 0%Z)
               else i <- uq_bucket q t ;; Ok (q, i)) ;;
  b <- vget (uq_tab q1) i ;;
  Ok (mkUq (lset (uq_tab q1) (Z.to_nat i) (e :: b)) (uq_size q1) (uq_nb q1 + 1)%Z
           (uq_t0 q1) (uq_i0 q1) (uq_delta q1) (uq_inc q1), i).

(** untidy_queue.hpp:147-150 and 159-162: shift to a non-empty bucket *)
Fixpoint uq_shift (fuel : nat) (q : uq) : res uq :=
  b <- vget (uq_tab q) (uq_i0 q) ;;
  match b with
  | _ :: _ => Ok q
  | [] =>
      match fuel with
      | O => Fail OutOfFuel
      | S k => if (uq_size q =? 0)%Z then Fail UB else
               uq_shift k (mkUq (uq_tab q) (uq_size q) (uq_nb q) (uq_t0 q + uq_delta q)
                                ((uq_i0 q + 1) mod uq_size q)%Z (uq_delta q) (uq_inc q))
      end
  end.

(** The shift looks at each bucket at most once when the queue is not empty;
    otherwise it never ends (reported as OutOfFuel). *)
Definition uq_fuel (q : uq) : nat := length (uq_tab q).

(** untidy_queue.hpp:155-165 top: back of the current bucket *)
Definition uq_top (q : uq) : res (uq * Z) :=
  q1 <- uq_shift (uq_fuel q) q ;;
  b <- vget (uq_tab q1) (uq_i0 q1) ;;
  match rev b with
  | x :: _ => Ok (q1, x)
  | [] => Fail UB
  end.

(** untidy_queue.hpp:141-153 pop *)
Definition uq_pop (q : uq) : res uq :=
  if uq_empty q then Ok q else
  q1 <- uq_shift (uq_fuel q) q ;;
  b <- vget (uq_tab q1) (uq_i0 q1) ;;
  Ok (mkUq (lset (uq_tab q1) (Z.to_nat (uq_i0 q1)) (removelast b)) (uq_size q1)
           (uq_nb q1 - 1)%Z (uq_t0 q1) (uq_i0 q1) (uq_delta q1) (uq_inc q1)).

(** untidy_queue.hpp:168-214 increase_priority: returns the new bucket *)
Definition uq_increase (q : uq) (e : Z) (bucket : Z) (t : N) : res (uq * Z) :=
  i <- uq_bucket q t ;;
  if (i =? u32 bucket)%Z then Ok (q, i)
  else
    b <- vget (uq_tab q) bucket ;;
    let tab1 := lset (uq_tab q) (Z.to_nat bucket) (filter (fun x => negb (x =? e)%Z) b) in
    b2 <- vget tab1 i ;;
    Ok (mkUq (lset tab1 (Z.to_nat i) (e :: b2)) (uq_size q) (uq_nb q)
             (uq_t0 q) (uq_i0 q) (uq_delta q) (uq_inc q), i).

(** untidy_queue.hpp:216-224 clear *)
Definition uq_clear (q : uq) : uq :=
  mkUq (map (fun _ => []) (uq_tab q)) (uq_size q) 0 n0 0 (uq_delta q) (uq_inc q).

Record uf_state := mkUf { uf_g : grid N; uf_q : uq }.

(** fmuntidyqueue.hpp:39-42 push: also stores the bucket in the cell *)
Definition uf_push (s : uf_state) (i : Z) : res uf_state :=
  t <- getArrivalTime (uf_g s) i ;;
  '(q, b) <- uq_push (uf_q s) i t ;;
  g <- setBucket (uf_g s) i b ;;
  Ok (mkUf g q).

(** fmuntidyqueue.hpp:52-55 increase *)
Definition uf_increase (s : uf_state) (i : Z) : res uf_state :=
  c <- getCell (uf_g s) i ;;
  '(q, b) <- uq_increase (uf_q s) i (c_bucket c) (c_val c) ;;
  g <- setBucket (uf_g s) i b ;;
  Ok (mkUf g q).

(** ufmm.hpp:74-92, one neighbour *)
Definition ufmm_neighbor (s : uf_state) (j : Z) : res uf_state :=
  c <- getCell (uf_g s) j ;;
  if fmstate_eqb (c_state c) FROZEN || isOccupied c then Ok s
  else
    t <- solveEikonal (uf_g s) j ;;
    if fmstate_eqb (c_state c) NARROW then
      if isTimeBetterThan t (c_val c) then
        g1 <- setArrivalTime (uf_g s) j t ;;
        uf_increase (mkUf g1 (uf_q s)) j
      else Ok s
    else
      g1 <- setState (uf_g s) j NARROW ;;
      g2 <- setArrivalTime g1 j t ;;
      uf_push (mkUf g2 (uf_q s)) j.

(** ufmm.hpp:70-93 one iteration (the queue is not empty) *)
Definition ufmm_step (s : uf_state) : res (Z * uf_state) :=
  '(q1, m) <- uq_top (uf_q s) ;;
  g1 <- setState (uf_g s) m FROZEN ;;
  ns <- getNeighbors (g_sh g1) m ;;
  s2 <- foldM ufmm_neighbor ns (mkUf g1 q1) ;;
  q3 <- uq_pop (uf_q s2) ;;
  Ok (m, mkUf (uf_g s2) q3).

(** ufmm.hpp:69-96 main loop; [log] is a ghost (popped indices, latest first) *)
Fixpoint ufmm_loop (fuel : nat) (goal : Z) (s : uf_state) (log : list Z)
  : res (uf_state * list Z) :=
  if uq_empty (uf_q s) then Ok (s, log) else
  match fuel with
  | O => Fail OutOfFuel
  | S k => '(m, s') <- ufmm_step s ;;
           if (m =? goal)%Z then Ok (s', m :: log) else ufmm_loop k goal s' (m :: log)
  end.

(** ufmm.hpp:57-97 computeInternal after setup() *)
Definition ufmm_run (fuel : nat) (goal : Z) (init : list Z) (g : grid N) (q : uq)
  : res (uf_state * list Z) :=
  s <- foldM (fun s i => g1 <- setArrivalTime (uf_g s) i n0 ;; uf_push (mkUf g1 (uf_q s)) i)
             init (mkUf g q) ;;
  ufmm_loop fuel goal s [].

End Untidy.

Arguments mkUq {N}. Arguments uq_tab {N}. Arguments uq_size {N}. Arguments uq_nb {N}.
Arguments uq_t0 {N}. Arguments uq_i0 {N}. Arguments uq_delta {N}. Arguments uq_inc {N}.
Arguments mkUf {N}. Arguments uf_g {N}. Arguments uf_q {N}.

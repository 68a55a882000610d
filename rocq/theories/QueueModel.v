(** QueueModel.v - model of DDQM, FIM and GMM
    (include/fast_methods/fm/ddqm.hpp, fim.hpp, gmm.hpp). *)
From Verif Require Import Base Num Grid Eikonal SweepModel.

Section DDQM.
Context {N : Num}.
Local Open Scope num_scope.

(** grid_, queues_[lq], queues_[1-lq], threshold_, thStep_, counts, stopPropagation.
    The model stores the pair (lower queue, higher queue) relative to [lq]. *)
Record dq_state := mkDq {
  dq_g : grid N; dq_lo : list Z; dq_hi : list Z;
  dq_th : N; dq_step : N; dq_c0 : Z; dq_c1 : Z; dq_stop : bool
}.

(** ddqm.hpp:77-86, body for one initial point: returns grid and queues_[0] *)
Definition ddqm_init1 (s : grid N * list Z) (i : Z) : res (grid N * list Z) :=
  let '(g, q) := s in
  g1 <- setArrivalTime g i n0 ;;
  ns <- getNeighbors (g_sh g1) i ;;
  foldM (fun '(g, q) j => c <- getCell g j ;;
           if isOccupied c then Ok (g, q)
           else g' <- setState g j OPEN ;; Ok (g', q ++ [j])) ns (g1, q).

(** ddqm.hpp:105-118, body for one neighbour n of the updated cell *)
Definition ddqm_neighbor (t : N) (s : dq_state) (n : Z) : res dq_state :=
  c <- getCell (dq_g s) n ;;
  if fmstate_eqb (c_state c) FROZEN && isTimeBetterThan t (c_val c) then
    g' <- setState (dq_g s) n OPEN ;;
    if isTimeBetterThan t (dq_th s)
    then Ok (mkDq g' (dq_lo s ++ [n]) (dq_hi s) (dq_th s) (dq_step s)
                  (dq_c0 s + 1)%Z (dq_c1 s + 1)%Z (dq_stop s))
    else Ok (mkDq g' (dq_lo s) (dq_hi s ++ [n]) (dq_th s) (dq_step s)
                  (dq_c0 s) (dq_c1 s + 1)%Z (dq_stop s))
  else Ok s.

(** ddqm.hpp:97-123, processing of the element [idx] just popped from queues_[lq] *)
Definition ddqm_pop1 (goal : Z) (s : dq_state) (idx : Z) : res dq_state :=
  c <- getCell (dq_g s) idx ;;
  if isOccupied c then Ok s                                          (* 99-100 continue *)
  else
    t <- solveEikonal (dq_g s) idx ;;
    s1 <- (if isTimeBetterThan t (c_val c) then
             g1 <- setArrivalTime (dq_g s) idx t ;;
             ns <- getNeighbors (g_sh g1) idx ;;
             foldM (ddqm_neighbor t) ns
               (mkDq g1 (dq_lo s) (dq_hi s) (dq_th s) (dq_step s) (dq_c0 s) (dq_c1 s) (dq_stop s))
           else Ok s) ;;
    g3 <- setState (dq_g s1) idx FROZEN ;;
    Ok (mkDq g3 (dq_lo s1) (dq_hi s1) (dq_th s1) (dq_step s1) (dq_c0 s1) (dq_c1 s1)
             (dq_stop s1 || (idx =? goal)%Z)).

(** ddqm.hpp:133-148 increaseThreshold *)
Definition increaseThreshold (s : dq_state) : dq_state :=
  let cur : N := if negb (dq_c1 s =? 0)%Z then nofZ (dq_c0 s) / nofZ (dq_c1 s) else n1 in
  let step := if cur <=? ((nofZ 65%Z : N) / nofZ 100%Z) then dq_step s * (nofZ 3%Z / nofZ 2%Z)
              else if (nofZ 75%Z / nofZ 100%Z) <=? cur then dq_step s / nofZ 2%Z
              else dq_step s in
  mkDq (dq_g s) (dq_lo s) (dq_hi s) (dq_th s + step) step 0 0 (dq_stop s).

(** ddqm.hpp:95-129: both while loops.  One unit of fuel per popped element or
    per queue swap.  The inner loop continues while the lower queue is not
    empty and the propagation is not stopped; otherwise lq is flipped and the
    threshold increased, then the outer condition is tested. *)
Fixpoint ddqm_loop (fuel : nat) (goal : Z) (s : dq_state) : res dq_state :=
  match fuel with
  | O => Fail OutOfFuel
  | S k =>
      match dq_lo s, dq_stop s with
      | idx :: q, false =>
          s' <- ddqm_pop1 goal (mkDq (dq_g s) q (dq_hi s) (dq_th s) (dq_step s)
                                     (dq_c0 s) (dq_c1 s) false) idx ;;
          ddqm_loop k goal s'
      | _, _ =>
          let s1 := increaseThreshold (mkDq (dq_g s) (dq_hi s) (dq_lo s) (dq_th s)
                                            (dq_step s) (dq_c0 s) (dq_c1 s) (dq_stop s)) in
          match dq_lo s1, dq_hi s1, dq_stop s1 with
          | [], [], _ => Ok s1
          | _, _, true => Ok s1
          | _, _, false => ddqm_loop k goal s1
          end
      end
  end.

(** ddqm.hpp:68-130 computeInternal after setup(), with both queues empty
    before (construction, reset() or a full run). *)
Definition ddqm_run (fuel : nat) (goal : Z) (init : list Z) (th step : N) (g : grid N)
  : res dq_state :=
  g0 <- freeze_all g ;;
  '(g1, q) <- foldM ddqm_init1 init (g0, []) ;;
  match q with
  | [] => Ok (mkDq g1 [] [] th step 0 0 false)           (* line 95: loop not entered *)
  | _ => ddqm_loop fuel goal (mkDq g1 q [] th step 0 0 false)
  end.

(** The two loops as above, with [lq], the index of the lower queue, made explicit (false: 0,
    true: 1): it tells which of queues_[0] and queues_[1] is [dq_lo]. *)
Fixpoint ddqm_loop_lq (fuel : nat) (goal : Z) (s : dq_state) (lq : bool) : res (dq_state * bool) :=
  match fuel with
  | O => Fail OutOfFuel
  | S k =>
      match dq_lo s, dq_stop s with
      | idx :: q, false =>
          s' <- ddqm_pop1 goal (mkDq (dq_g s) q (dq_hi s) (dq_th s) (dq_step s)
                                     (dq_c0 s) (dq_c1 s) false) idx ;;
          ddqm_loop_lq k goal s' lq
      | _, _ =>
          let s1 := increaseThreshold (mkDq (dq_g s) (dq_hi s) (dq_lo s) (dq_th s)
                                            (dq_step s) (dq_c0 s) (dq_c1 s) (dq_stop s)) in
          match dq_lo s1, dq_hi s1, dq_stop s1 with
          | [], [], _ => Ok (s1, negb lq)
          | _, _, true => Ok (s1, negb lq)
          | _, _, false => ddqm_loop_lq k goal s1 (negb lq)
          end
      end
  end.

(** ddqm.hpp:68-130 computeInternal after setup(), from the content [q0], [q1] the queues
    queues_[0] and queues_[1] have (not empty after a run that stopped at the goal): lines 77-86
    append to queues_[0], line 90 starts with lq = 0.  Returns the final queues as well. *)
Definition ddqm_resume (fuel : nat) (goal : Z) (init : list Z) (th step : N) (q0 q1 : list Z) (g : grid N)
  : res (dq_state * list Z * list Z) :=
  g0 <- freeze_all g ;;
  '(g1, q) <- foldM ddqm_init1 init (g0, q0) ;;
  match q, q1 with
  | [], [] => Ok (mkDq g1 [] [] th step 0 0 false, [], [])
  | _, _ =>
      '(s, lq) <- ddqm_loop_lq fuel goal (mkDq g1 q q1 th step 0 0 false) false ;;
      Ok (s, if lq then dq_hi s else dq_lo s, if lq then dq_lo s else dq_hi s)
  end.

(** ddqm.hpp:50-51 (setEnvironment): thStep_ *)
Definition ddqm_env_step (g : grid N) : N :=
  (nofZ 3%Z / nofZ 2%Z) * g_leaf g / getAvgSpeed g.

(** ddqm.hpp:158-160 (reset): thStep_ *)
Definition ddqm_reset_step (g : grid N) : N :=
  (nofZ 3%Z / nofZ 2%Z) / (n1 / (getAvgSpeed g * g_leaf g)).

End DDQM.

Arguments mkDq {N}. Arguments dq_g {N}. Arguments dq_lo {N}. Arguments dq_hi {N}.
Arguments dq_th {N}. Arguments dq_step {N}. Arguments dq_c0 {N}. Arguments dq_c1 {N}.
Arguments dq_stop {N}.

Section FIM.
Context {N : Num}.
Local Open Scope num_scope.

(** grid_, active_list_ *)
Record fim_state := mkFim { fi_g : grid N; fi_l : list Z }.

(** fim.hpp:57-69, body for one initial point *)
Definition fim_init1 (s : fim_state) (i : Z) : res fim_state :=
  g1 <- setArrivalTime (fi_g s) i n0 ;;
  g2 <- setState g1 i FROZEN ;;
  ns <- getNeighbors (g_sh g2) i ;;
  foldM (fun s j => c <- getCell (fi_g s) j ;;
           if fmstate_eqb (c_state c) OPEN && negb (isOccupied c) then
             g' <- setState (fi_g s) j NARROW ;; Ok (mkFim g' (fi_l s ++ [j]))
           else Ok s) ns (mkFim g2 (fi_l s)).

(** fim.hpp:79-90, body for one neighbour of a converged cell; returns the
    cells inserted in the list before x, in order *)
Definition fim_neighbor (s : grid N * list Z) (j : Z) : res (grid N * list Z) :=
  let '(g, ins) := s in
  c <- getCell g j ;;
  if negb (fmstate_eqb (c_state c) NARROW) && negb (isOccupied c) then
    q <- solveEikonal g j ;;
    if isTimeBetterThan q (c_val c) then
      g1 <- setArrivalTime g j q ;;
      g2 <- setState g1 j NARROW ;;
      Ok (g2, ins ++ [j])
    else Ok (g, ins)
  else Ok (g, ins).

(** fim.hpp:73-97: one pass of the [for] loop over active_list_.  [before] are
    the elements in front of x (in order), [after] starts at x.  erase(x)
    followed by --x and the loop's ++x continues with the element after x; when
    x is the first element, --x decrements begin(): undefined in C++, on the
    circular list of libstdc++ it yields end() and ++ wraps to the first
    element.  [ub] records that this happened. *)
Fixpoint fim_pass (E : N) (goal : Z) (g : grid N) (before after : list Z) (stop ub : bool)
  : res (grid N * list Z * bool * bool) :=
  match after with
  | [] => Ok (g, before, stop, ub)
  | x :: r =>
      p <- getArrivalTime g x ;;
      q <- solveEikonal g x ;;
      g1 <- setArrivalTime g x q ;;
      if nabs (p - q) <=? E then
        ns <- getNeighbors (g_sh g1) x ;;
        '(g2, ins) <- foldM fim_neighbor ns (g1, []) ;;
        g3 <- setState g2 x FROZEN ;;
        let before' := before ++ ins in
        fim_pass E goal g3 before' r (stop || (x =? goal)%Z)
                 (ub || match before' with [] => true | _ => false end)
      else fim_pass E goal g1 (before ++ [x]) r stop ub
  end.

(** fim.hpp:72-98 main loop *)
Fixpoint fim_loop (fuel : nat) (E : N) (goal : Z) (g : grid N) (l : list Z) (stop ub : bool)
  : res (grid N * list Z * bool) :=
  if stop then Ok (g, l, ub) else
  match l with
  | [] => Ok (g, [], ub)
  | _ => match fuel with
         | O => Fail OutOfFuel
         | S k => '(g', l', stop', ub') <- fim_pass E goal g [] l stop ub ;;
                  fim_loop k E goal g' l' stop' ub'
         end
  end.

(** fim.hpp:45-99 computeInternal after setup(), active_list_ empty before *)
Definition fim_run (fuel : nat) (E : N) (goal : Z) (init : list Z) (g : grid N)
  : res (grid N * list Z * bool) :=
  s <- foldM fim_init1 init (mkFim g []) ;;
  fim_loop fuel E goal (fi_g s) (fi_l s) false false.

(** fim.hpp:45-99, from the content [l0] of active_list_ (not empty after a run that stopped at
    the goal): line 65 appends to it *)
Definition fim_resume (fuel : nat) (E : N) (goal : Z) (init : list Z) (l0 : list Z) (g : grid N)
  : res (grid N * list Z * bool) :=
  s <- foldM fim_init1 init (mkFim g l0) ;;
  fim_loop fuel E goal (fi_g s) (fi_l s) false false.

End FIM.

Arguments mkFim {N}. Arguments fi_g {N}. Arguments fi_l {N}.

Section GMM.
Context {N : Num}.
Local Open Scope num_scope.

(** grid_, gamma_, tm_ *)
Record gmm_state := mkGmm { gm_g : grid N; gm_l : list Z; gm_tm : N }.

(** gmm.hpp:42-51 setup: deltau_ *)
Definition gmm_setup_dt (dt : N) (g : grid N) : N :=
  if dt <? n0 then n1 / getMaxSpeed g else dt.

(** gmm.hpp:65-83, body for one initial point *)
Definition gmm_init1 (s : gmm_state) (i : Z) : res gmm_state :=
  g1 <- setArrivalTime (gm_g s) i n0 ;;
  g2 <- setState g1 i FROZEN ;;
  ns <- getNeighbors (g_sh g2) i ;;
  foldM (fun s j =>
           c <- getCell (gm_g s) j ;;
           if fmstate_eqb (c_state c) FROZEN || isOccupied c then Ok s
           else
             t <- solveEikonal (gm_g s) j ;;
             let tm' := if t <? gm_tm s then t else gm_tm s in
             ga <- setArrivalTime (gm_g s) j t ;;
             gb <- setState ga j NARROW ;;
             Ok (mkGmm gb (gm_l s ++ [j]) tm'))
        ns (mkGmm g2 (gm_l s) (gm_tm s)).

(** gmm.hpp:104 and 123: the neighbour is skipped *)
Definition gmm_skip (c : cell N) : bool :=
  fmstate_eqb (c_state c) FROZEN || isOccupied c || (c_occ c =? n0).

(** gmm.hpp:99-113 first pass, one element *)
Definition gmm_first (tm : N) (g : grid N) (i : Z) : res (grid N) :=
  ti <- getArrivalTime g i ;;
  if ti <=? tm then
    ns <- getNeighbors (g_sh g) i ;;
    foldM (fun g j =>
             c <- getCell g j ;;
             if gmm_skip c then Ok g
             else t <- solveEikonal g j ;;
                  if t <? c_val c then setArrivalTime g j t else Ok g) ns g
  else Ok g.

(** gmm.hpp:121-135, one neighbour in the second pass; returns pushed cells *)
Definition gmm_second_nb (s : grid N * list Z) (j : Z) : res (grid N * list Z) :=
  let '(g, pushed) := s in
  c <- getCell g j ;;
  if gmm_skip c then Ok (g, pushed)
  else
    t <- solveEikonal g j ;;
    g1 <- (if t <? c_val c then setArrivalTime g j t else Ok g) ;;
    if fmstate_eqb (c_state c) OPEN then
      g2 <- setState g1 j NARROW ;; Ok (g2, pushed ++ [j])
    else Ok (g1, pushed).

(** gmm.hpp:115-143 second pass over the first narrow_size elements [l];
    [kept] are the elements left in place, [pushed] those appended. *)
Fixpoint gmm_second (tm : N) (goal : Z) (g : grid N) (kept l pushed : list Z) (stop : bool)
  : res (grid N * list Z * bool) :=
  match l with
  | [] => Ok (g, kept ++ pushed, stop)
  | i :: r =>
      ti <- getArrivalTime g i ;;
      if ti <=? tm then
        ns <- getNeighbors (g_sh g) i ;;
        '(g1, p1) <- foldM gmm_second_nb ns (g, pushed) ;;
        g2 <- setState g1 i FROZEN ;;
        gmm_second tm goal g2 kept r p1 (stop || (i =? goal)%Z)
      else gmm_second tm goal g (kept ++ [i]) r pushed stop
  end.

(** gmm.hpp:86-144 main loop.  Each iteration decrements gamma_.begin()
    (lines 94-95: undefined in C++, end() on libstdc++'s circular list, so the
    first pass runs over the whole list in reverse order). *)
Fixpoint gmm_loop (fuel : nat) (dt : N) (goal : Z) (s : gmm_state) (stop : bool) : res gmm_state :=
  if stop then Ok s else
  match gm_l s with
  | [] => Ok s
  | _ => match fuel with
         | O => Fail OutOfFuel
         | S k =>
             let tm := gm_tm s + dt in
             g1 <- foldM (gmm_first tm) (rev (gm_l s)) (gm_g s) ;;
             '(g2, l2, stop2) <- gmm_second tm goal g1 [] (gm_l s) [] stop ;;
             gmm_loop k dt goal (mkGmm g2 l2 tm) stop2
         end
  end.

(** gmm.hpp:59-145 computeInternal after setup(), gamma_ empty before *)
Definition gmm_run (fuel : nat) (dt : N) (goal : Z) (init : list Z) (g : grid N) : res gmm_state :=
  s <- foldM gmm_init1 init (mkGmm g [] ninf) ;;
  gmm_loop fuel dt goal s false.

(** gmm.hpp:59-145, from the content [l0] of gamma_ (not empty after a run that stopped at the
    goal): line 79 appends to it, line 63 sets tm_ to infinity again *)
Definition gmm_resume (fuel : nat) (dt : N) (goal : Z) (init : list Z) (l0 : list Z) (g : grid N) : res gmm_state :=
  s <- foldM gmm_init1 init (mkGmm g l0 ninf) ;;
  gmm_loop fuel dt goal s false.

End GMM.

Arguments mkGmm {N}. Arguments gm_g {N}. Arguments gm_l {N}. Arguments gm_tm {N}.

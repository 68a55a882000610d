(** Prop_FIMLoop.v - property theorems C92: the Fast Iterative Method over IEEE doubles can run
    for ever, although over the reals it always ends (C71). *)
From Coq Require Import Reals Lra.
From Verif Require Import Base BaseFacts Num NumF64 NumXR NumLaws Grid GridFacts GridUpd GridMore Eikonal
  FMMModel SweepModel QueueModel HeapRef Spec Obs Examples Prop_FMM Prop_Heap Prop_FIMTerm Prop_GMM.
From Flocq Require Import IEEE754.BinarySingleNaN.
Open Scope Z_scope.

(** ** runs that come back to a state they have been in *)
Section Cycle.
Variable A : Type.
Variable step : A -> option A.
Fixpoint steps (n : nat) (a : A) : option A :=
  match n with O => Some a | S n => match step a with Some b => steps n b | None => None end end.
Lemma steps_add n m a : steps (n + m) a = match steps n a with Some b => steps m b | None => None end.
Proof. revert a. induction n as [|n IH]; intros a; [reflexivity|]. cbn [steps Nat.add]. destruct (step a); [apply IH|reflexivity]. Qed.
Lemma steps_times q m a : steps m a = Some a -> steps (q * m) a = Some a.
Proof. intros H. induction q as [|q IH]; [reflexivity|]. cbn [Nat.mul]. rewrite steps_add, H. exact IH. Qed.
Lemma cycle_for_ever n m a b : (0 < m)%nat -> steps n a = Some b -> steps m b = Some b -> forall k, steps k a <> None.
Proof.
  intros Hm H1 H2 k E. assert (K : steps (n + k * m) a = Some b) by (rewrite steps_add, H1; apply steps_times, H2).
  replace (n + k * m)%nat with (k + (n + k * m - k))%nat in K by nia. rewrite steps_add, E in K. discriminate.
Qed.
End Cycle.
Arguments steps {A}.

(** ** a pass in which the test of convergence is any test [ok] on the difference *)
Section Pass.
Context {N : Num}.
Fixpoint pass_o (ok : N -> bool) (goal : Z) (g : grid N) (before after : list Z) (stop : bool) : res (grid N * list Z * bool) :=
  match after with
  | [] => Ok (g, before, stop)
  | x :: r =>
      p <- getArrivalTime g x ;;
      q <- solveEikonal g x ;;
      g1 <- setArrivalTime g x q ;;
      if ok (nabs (nsub p q)) then
        ns <- getNeighbors (g_sh g1) x ;;
        '(g2, ins) <- foldM fim_neighbor ns (g1, []) ;;
        g3 <- setState g2 x FROZEN ;;
        pass_o ok goal g3 (before ++ ins) r (stop || (x =? goal)%Z)
      else pass_o ok goal g1 (before ++ [x]) r stop
  end.
Lemma pass_o_ok ok E goal : (forall d, nleb d E = ok d) -> forall after g before stop ub a,
  pass_o ok goal g before after stop = Ok a -> exists ub', fim_pass E goal g before after stop ub = Ok (a, ub').
Proof.
  intros Ho. induction after as [|x r IH]; intros g before stop ub a H; cbn [pass_o fim_pass] in *.
  - inversion H; subst. eexists; reflexivity.
  - destruct (getArrivalTime g x) as [p|]; [|discriminate]. cbn [bind] in *.
    destruct (solveEikonal g x) as [q|]; [|discriminate]. cbn [bind] in *.
    destruct (setArrivalTime g x q) as [g1|]; [|discriminate]. cbn [bind] in *. rewrite Ho.
    destruct (ok (nabs (nsub p q))).
    + destruct (getNeighbors (g_sh g1) x) as [ns|]; [|discriminate]. cbn [bind] in *.
      destruct (foldM fim_neighbor ns (g1, [])) as [[g2 ins]|]; [|discriminate]. cbn [bind] in *.
      destruct (setState g2 x FROZEN) as [g3|]; [|discriminate]. cbn [bind] in *. eapply IH, H.
    + eapply IH, H.
Qed.

(** one turn of the [while] loop that does not stop *)
Definition turn (ok : N -> bool) (goal : Z) (s : grid N * list Z) : option (grid N * list Z) :=
  match snd s with
  | [] => None
  | _ => match pass_o ok goal (fst s) [] (snd s) false with
         | Ok (g', l', false) => Some (g', l')
         | _ => None
         end
  end.
Lemma turns_loop ok E goal : (forall d, nleb d E = ok d) -> forall fuel s ub, steps (turn ok goal) (S fuel) s <> None ->
  fim_loop fuel E goal (fst s) (snd s) false ub = Fail OutOfFuel.
Proof.
  intros Ho. induction fuel as [|fuel IH]; intros [g l] ub H.
  - cbn [steps] in H. unfold turn in H. cbn [fst snd fim_loop] in *. destruct l; [contradiction|reflexivity].
  - cbn [fst snd]. remember (S fuel) as sf. cbn [steps] in H. subst sf. unfold turn in H at 1. cbn [fst snd] in H.
    destruct l as [|x r]; [contradiction|]. cbn [fim_loop].
    destruct (pass_o ok goal g [] (x :: r) false) as [[[g' l'] st]|] eqn:Ep; [|contradiction].
    destruct st; [contradiction|]. destruct (pass_o_ok ok E goal Ho _ _ _ _ ub _ Ep) as [ub' ->]. cbn [bind].
    exact (IH (g', l') ub' H).
Qed.
Lemma turns_run ok E goal init (g : grid N) s n m a : (forall d, nleb d E = ok d) ->
  foldM fim_init1 init (mkFim g []) = Ok s -> (0 < m)%nat ->
  steps (turn ok goal) n (fi_g s, fi_l s) = Some a -> steps (turn ok goal) m a = Some a ->
  forall fuel, fim_run fuel E goal init g = Fail OutOfFuel.
Proof.
  intros Ho Hi Hm H1 H2 fuel. unfold fim_run. rewrite Hi. cbn [bind].
  apply (turns_loop ok E goal Ho fuel (fi_g s, fi_l s) false). exact (cycle_for_ever _ _ n m _ _ Hm H1 H2 (S fuel)).
Qed.
End Pass.

(** ** comparing states over doubles *)
Fixpoint list_same {A} (same : A -> A -> bool) (l m : list A) : bool :=
  match l, m with [], [] => true | x :: l, y :: m => same x y && list_same same l m | _, _ => false end.
Lemma list_same_eq {A} (same : A -> A -> bool) : (forall x y, same x y = true -> x = y) -> forall l m, list_same same l m = true -> l = m.
Proof.
  intros H. induction l as [|x l IH]; intros [|y m]; cbn [list_same]; intros E; try discriminate; [reflexivity|].
  apply andb_prop in E. destruct E as [E1 E2]. f_equal; auto.
Qed.
Definition cell_same (c d : cell F64) : bool :=
  f64_same (c_val c) (c_val d) && f64_same (c_occ c) (c_occ d) && fmstate_eqb (c_state c) (c_state d) &&
  Z.eqb (c_bucket c) (c_bucket d) && f64_same (c_h c) (c_h d) && Z.eqb (c_idx c) (c_idx d).
Lemma cell_same_eq c d : cell_same c d = true -> c = d.
Proof.
  destruct c as [a1 a2 a3 a4 a5 a6], d as [b1 b2 b3 b4 b5 b6]. unfold cell_same.
  cbn [c_val c_occ c_state c_bucket c_h c_idx]. intros H. repeat (apply andb_prop in H; destruct H as [H ?]).
  assert (a3 = b3) by (destruct a3, b3; cbn in *; congruence).
  assert (a1 = b1) by (apply f64_same_eq; assumption). assert (a2 = b2) by (apply f64_same_eq; assumption).
  assert (a5 = b5) by (apply f64_same_eq; assumption). assert (a4 = b4) by (apply Z.eqb_eq; assumption).
  assert (a6 = b6) by (apply Z.eqb_eq; assumption). congruence.
Qed.
Definition grid_same (g k : grid F64) : bool :=
  list_same Z.eqb (s_dims (g_sh g)) (s_dims (g_sh k)) && list_same Z.eqb (s_d (g_sh g)) (s_d (g_sh k)) &&
  Z.eqb (s_n (g_sh g)) (s_n (g_sh k)) && f64_same (g_leaf g) (g_leaf k) && list_same cell_same (g_cells g) (g_cells k) &&
  Bool.eqb (g_clean g) (g_clean k) && list_same Z.eqb (g_obs g) (g_obs k).
Lemma grid_same_eq g k : grid_same g k = true -> g = k.
Proof.
  destruct g as [[d1 d2 d3] lf cs cl ob], k as [[e1 e2 e3] lf' cs' cl' ob']. unfold grid_same.
  cbn [g_sh s_dims s_d s_n g_leaf g_cells g_clean g_obs]. intros H. repeat (apply andb_prop in H; destruct H as [H ?]).
  pose proof (fun l m => list_same_eq Z.eqb (fun x y => proj1 (Z.eqb_eq x y)) l m) as ZE.
  assert (d1 = e1) by auto. assert (d2 = e2) by auto. assert (d3 = e3) by (apply Z.eqb_eq; assumption).
  assert (lf = lf') by (apply f64_same_eq; assumption).
  assert (cs = cs') by (apply (list_same_eq cell_same cell_same_eq); assumption).
  assert (cl = cl') by (apply Bool.eqb_prop; assumption). assert (ob = ob') by auto. congruence.
Qed.
Definition cycles (ok : F64 -> bool) (goal : Z) (init : list Z) (g : grid F64) (n m : nat) : bool :=
  match foldM fim_init1 init (mkFim g []) with
  | Ok s => match steps (turn ok goal) n (fi_g s, fi_l s) with
            | Some a => match steps (turn ok goal) m a with
                        | Some b => grid_same (fst b) (fst a) && list_same Z.eqb (snd b) (snd a)
                        | None => false
                        end
            | None => false
            end
  | Fail _ => false
  end.
Lemma cycles_run ok E goal init (g : grid F64) n m : (forall d : F64, nleb d E = ok d) -> (0 < m)%nat ->
  cycles ok goal init g n m = true -> forall fuel, fim_run fuel E goal init g = Fail OutOfFuel.
Proof.
  intros Ho Hm H. unfold cycles in H. destruct (foldM fim_init1 init (mkFim g [])) as [s|] eqn:Ei; [|discriminate].
  destruct (steps (turn ok goal) n (fi_g s, fi_l s)) as [a|] eqn:E1; [|discriminate].
  destruct (steps (turn ok goal) m a) as [b|] eqn:E2; [|discriminate]. apply andb_prop in H. destruct H as [H1 H2].
  apply grid_same_eq in H1. apply (list_same_eq Z.eqb (fun x y => proj1 (Z.eqb_eq x y))) in H2.
  assert (b = a) by (destruct a, b; cbn [fst snd] in *; congruence). subst b.
  exact (turns_run ok E goal init g s n m a Ho Ei Hm E1 E2).
Qed.

(** a tolerance other than +infinity: what the test answers to 0 is a bit of it, to +infinity it answers no *)
Definition tol (z : bool) (other : F64 -> bool) (d : F64) : bool :=
  match d with B754_zero _ => z | B754_infinity false => false | _ => other d end.
Lemma tol_eq (E : F64) : neqb E (ninf (n := F64)) = false -> forall d : F64, nleb d E = tol (nleb (n0 : F64) E) (fun d => nleb d E) d.
Proof.
  intros HE d. destruct d as [s|s| |s m e H]; cbn [tol]; try reflexivity.
  destruct s; [reflexivity|]. destruct E as [[]|[]| |[] ? ? ?]; try reflexivity. change (true = false) in HE. discriminate HE.
Qed.

(** ** the maps *)
(** four cells, the two neighbours of the source 0 crossed in 2^27 time units, cell 3 in one *)
Definition c92_far : grid F64 :=
  vgrid [2;2] (n1 : F64) [z64 1; ndiv (z64 1) (z64 (2 ^ 27)); ndiv (z64 1) (z64 (2 ^ 27)); z64 1].
(** four cells, the neighbours of the source crossed in 730 and about 731 time units, cell 3 in one *)
Definition c92_near : grid F64 :=
  vgrid [2;2] (n1 : F64) [z64 1; ndiv (z64 1) (z64 730); ndiv (z64 (2 ^ 35)) (z64 (731 * 2 ^ 35 - 1)); z64 1].

(** Every tolerance but +infinity, no goal or cell 3 as the goal: no number of passes is enough. *)
Theorem C92_no_tolerance_helps :
  forall (E : F64) goal, neqb E (ninf (n := F64)) = false -> goal = noGoal \/ goal = 3 ->
  forall fuel, fim_run fuel E goal [0] c92_far = Fail OutOfFuel.
Proof.
  intros E goal HE Hg.
  pose proof (tol_eq E HE) as Ho. revert Ho.
  generalize (fun d : F64 => nleb d E). intros other. generalize (nleb (n0 : F64) E). intros z Ho.
  apply (cycles_run _ E goal [0] c92_far 4 2 Ho ltac:(lia)).
  clear - Hg. destruct z, Hg as [-> | ->]; vm_compute; reflexivity.
Qed.
Print Assumptions C92_no_tolerance_helps.

(** The default tolerance, times below 1000. *)
Theorem C92_default_tolerance_never_ends :
  forall goal, goal = noGoal \/ goal = 3 ->
  forall fuel, fim_run fuel (n0 : F64) goal [0] c92_near = Fail OutOfFuel.
Proof.
  intros goal Hg. apply (cycles_run (fun d => nleb d (n0 : F64)) (n0 : F64) goal [0] c92_near 6 2 ltac:(reflexivity) ltac:(lia)).
  destruct Hg as [-> | ->]; vm_compute; reflexivity.
Qed.
Print Assumptions C92_default_tolerance_never_ends.

(** ** in general: one active cell that goes back and forth *)
Lemma lset_back {A} (l : list A) n x y : nth_error l n = Some x -> lset (lset l n y) n x = l.
Proof. revert n. induction l as [|a l IH]; intros [|n] H; cbn in *; try discriminate; [congruence|f_equal; auto]. Qed.
Lemma set_back {N : Num} (g g1 : grid N) x (p q : N) :
  getArrivalTime g x = Ok p -> setArrivalTime g x q = Ok g1 -> getArrivalTime g1 x = Ok q /\ setArrivalTime g1 x p = Ok g.
Proof.
  unfold getArrivalTime, setArrivalTime. intros Hp H. assert (G1 : getCell g1 x = c <- getCell g x ;; Ok (with_val c q)).
  { rewrite (updCell_get _ _ _ _ x H), Z.eqb_refl. reflexivity. }
  unfold updCell in *. destruct (getCell g x) as [c|] eqn:Ec; [|discriminate]. cbn [bind] in *.
  rewrite G1. cbn [bind]. split; [reflexivity|]. injection H as <-. f_equal. unfold with_cells.
  cbn [g_sh g_leaf g_cells g_clean g_obs]. injection Hp as Hp.
  unfold getCell in Ec. apply vget_ok in Ec. destruct Ec as [Hx Ec].
  assert (Ew : with_val (with_val c q) p = c) by (destruct c; cbn in *; rewrite Hp; reflexivity).
  rewrite Ew, (lset_back _ _ _ _ Ec). destruct g; reflexivity.
Qed.

(** Any arithmetic, any grid: if the time of the only active cell changes from p to q in a pass and
    from q back to p in the next, and the tolerance accepts neither change, FIM never ends. *)
Theorem C92_back_and_forth :
  forall (N : Num) (E : N) goal (g g1 : grid N) x (p q : N) ub,
  getArrivalTime g x = Ok p -> solveEikonal g x = Ok q ->
  setArrivalTime g x q = Ok g1 -> solveEikonal g1 x = Ok p ->
  nleb (nabs (nsub p q)) E = false -> nleb (nabs (nsub q p)) E = false ->
  forall fuel, fim_loop fuel E goal g [x] false ub = Fail OutOfFuel.
Proof.
  intros N E goal g g1 x p q ub Hp Hq H1 Hp1 E1 E2. destruct (set_back _ _ _ _ _ Hp H1) as [Hq1 H2].
  assert (A : forall fuel, fim_loop fuel E goal g [x] false ub = Fail OutOfFuel /\ fim_loop fuel E goal g1 [x] false ub = Fail OutOfFuel).
  { induction fuel as [|fuel [IH1 IH2]]; [split; reflexivity|]. split; cbn [fim_loop fim_pass].
    - rewrite Hp, Hq. cbn [bind]. rewrite H1. cbn [bind]. rewrite E1. cbn [app bind]. exact IH2.
    - rewrite Hq1, Hp1. cbn [bind]. rewrite H2. cbn [bind]. rewrite E2. cbn [app bind]. exact IH1. }
  intros fuel. apply A.
Qed.
Print Assumptions C92_back_and_forth.

(** ** the same maps elsewhere *)
Definition c92_far_exact : grid XR := vgrid [2;2] (XFin 1 : XR) (map XFin [1; / 2 ^ 27; / 2 ^ 27; 1]%R : list XR).
Definition c92_near_exact : grid XR := vgrid [2;2] (XFin 1 : XR) (map XFin [1; / 730; 2 ^ 35 / (731 * 2 ^ 35 - 1); 1]%R : list XR).

Lemma xr_map_problem (vs : list R) : List.length vs = 4%nat ->
  exact_problem [2;2] (vgrid [2;2] (XFin 1 : XR) (map XFin vs : list XR)) [0] /\
  separated [2;2] (vgrid [2;2] (XFin 1 : XR) (map XFin vs : list XR)) [0].
Proof.
  intros Hl. split.
  - split; [split; [repeat constructor; lia|cbn; lia]|]. split; [apply vgrid_clean; rewrite map_length, Hl; reflexivity|]. split.
    + split; [exists 1%R; split; [reflexivity|lra]|]. intros i c Hc.
      destruct vs as [|v0 [|v1 [|v2 [|v3 [|]]]]]; try discriminate Hl.
      unfold getCell, vgrid in Hc. apply vget_ok in Hc. destruct Hc as [_ Hc]. cbn in Hc.
      destruct (Z.to_nat i) as [|[|[|[|[|]]]]]; cbn in Hc; inversion Hc; subst; eexists; reflexivity.
    + split; [repeat constructor; cbn; lia|]. intros i [<-|[]]; cbn; lia.
  - intros i j [<-|[]] [<-|[]] Ha. exfalso. exact (adjacent_irrefl _ _ Ha).
Qed.

(** Over the reals FIM ends on both maps, with every tolerance and goal (C71): the rounding is the cause. *)
Theorem C92_exact_arithmetic_ends :
  forall e goal, (0 <= e)%R ->
  (exists k g' l ub, forall fuel, (k <= fuel)%nat -> fim_run fuel (XFin e : XR) goal [0] c92_far_exact = Ok (g', l, ub)) /\
  (exists k g' l ub, forall fuel, (k <= fuel)%nat -> fim_run fuel (XFin e : XR) goal [0] c92_near_exact = Ok (g', l, ub)).
Proof.
  intros e goal He. split; (apply (C71_fim_terminates [2;2]); [apply xr_map_problem; reflexivity|apply xr_map_problem; reflexivity|exact He]).
Qed.
Print Assumptions C92_exact_arithmetic_ends.

(** Over doubles FMM and FSM end on both maps, and FIM ends on the second with a tolerance of 2^-30
    and on the first with an infinite one. *)
Theorem C92_the_others_end :
  (forall g, In g [c92_far; c92_near] ->
     (exists r, fmm_run (RefHeap (N := F64)) 40 no_heur noGoal [0] g (hempty _) = Ok r) /\
     (exists r, fsm_run 40 4294967295 noGoal [0] 0 [1;1] g = Ok r)) /\
  (exists r, fim_run 10 (ndiv (z64 1) (z64 (2 ^ 30)) : F64) noGoal [0] c92_near = Ok r) /\
  (exists r, fim_run 10 (ninf (n := F64)) noGoal [0] c92_far = Ok r).
Proof.
  assert (B : forall (A : Type) (r : res A), match r with Ok _ => true | Fail _ => false end = true -> exists a, r = Ok a)
    by (intros A [a|e] H; [eauto|discriminate]).
  split; [|split; apply B; vm_compute; reflexivity].
  intros g [<-|[<-|[]]]; split; apply B; vm_compute; reflexivity.
Qed.
Print Assumptions C92_the_others_end.

(** the hypotheses of C92_back_and_forth hold of the first map once the times of cells 1 and 2 are known *)
Definition c92_mid : res (grid F64) :=
  foldM (fun g '(i, t) => setArrivalTime g i t) [(0, z64 0); (1, z64 (2 ^ 27)); (2, z64 (2 ^ 27))] c92_far.
Example C92_back_and_forth_case :
  exists g g1 q, c92_mid = Ok g /\ getArrivalTime g 3 = Ok (ninf (n := F64)) /\ solveEikonal g 3 = Ok q /\
  setArrivalTime g 3 q = Ok g1 /\ solveEikonal g1 3 = Ok (ninf (n := F64)) /\
  nleb (nabs (nsub (ninf (n := F64)) q)) (z64 1000) = false /\ nleb (nabs (nsub q (ninf (n := F64)))) (z64 1000) = false.
Proof.
  assert (H : match c92_mid with Fail _ => false | Ok g =>
     match getArrivalTime g 3, solveEikonal g 3 with
     | Ok p, Ok q => f64_same p (ninf (n := F64)) &&
        match setArrivalTime g 3 q with Fail _ => false | Ok g1 =>
        match solveEikonal g1 3 with Fail _ => false | Ok p1 => f64_same p1 (ninf (n := F64)) &&
           negb (nleb (nabs (nsub (ninf (n := F64)) q)) (z64 1000)) && negb (nleb (nabs (nsub q (ninf (n := F64)))) (z64 1000)) end end
     | _, _ => false end end = true) by (vm_compute; reflexivity).
  destruct c92_mid as [g|]; [|discriminate]. destruct (getArrivalTime g 3) as [p|] eqn:Ep; [|discriminate].
  destruct (solveEikonal g 3) as [q|] eqn:Eq; [|discriminate]. apply andb_prop in H. destruct H as [H1 H].
  destruct (setArrivalTime g 3 q) as [g1|] eqn:Es; [|discriminate]. destruct (solveEikonal g1 3) as [p1|] eqn:E1; [|discriminate].
  apply andb_prop in H. destruct H as [H H4]. apply andb_prop in H. destruct H as [H2 H3].
  apply f64_same_eq in H1, H2. apply negb_true_iff in H3, H4.
  exists g, g1, q. rewrite Ep, Es, E1, H1, H2, Eq. repeat split; assumption.
Qed.

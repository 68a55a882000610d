(** Prop_History.v - property theorems C82 (FSM, LSM, DDQM, FIM and GMM never leave the grid,
    whatever it contains) and C83 (the answer of a solver object does not depend on the
    queries it answered before). *)
From Coq Require Import Permutation.
From Verif Require Import Base BaseFacts Num NumXR NumF64 NumLaws Grid GridFacts GridUpd Spec Obs Examples Eikonal FMMModel HeapLaws HeapRef BagHeap
  SweepModel QueueModel UntidyModel SweepOrder Frame SolverModel Lifecycle FMMStruct GridMore Safe DaryModel DaryHeap FibModel FibHeap Prop_FMM Prop_Heap Prop_Solver Prop_Sweep Prop_SFMM FM2Model FM2Facts.
Open Scope Z_scope.

(** ** C82 *)
(** The run returned with a grid of the same shape as before, or is still running: no access
    outside the grid, no other undefined behaviour, no exit. *)
Definition no_fault {N : Num} {A : Type} (dims : list Z) (grid_of : A -> grid N) (r : res A) : Prop :=
  match r with Ok a => grid_ok dims (grid_of a) | Fail e => e = OutOfFuel end.

Lemma safe_no_fault {N : Num} {A : Type} dims (grid_of : A -> grid N) (r : res A) (P : A -> Prop) :
  safe r P -> (forall a, P a -> grid_ok dims (grid_of a)) -> no_fault dims grid_of r.
Proof. unfold safe, no_fault. destruct r as [a|[| |]]; [auto|tauto|tauto|reflexivity]. Qed.

(** any arithmetic, any content of the cells (times, states, velocities, leftovers of earlier
    runs), any number of initial points (repeated, adjacent, occupied), any goal, any
    tolerance, step, threshold and sweep limit *)
Theorem C82_runs_stay_inside_the_grid :
  forall (N : Num) (L : NumLaws N) dims (g : grid N) init goal fuel,
  shape_ok dims -> grid_ok dims g -> (forall i, In i init -> 0 <= i < box_size dims) ->
  (forall maxSweeps sweeps incs, is_dir (length dims) incs -> no_fault dims (fun r => sw_g (fst (fst r))) (fsm_run fuel maxSweeps goal init sweeps incs g)) /\
  (forall maxSweeps sweeps incs, is_dir (length dims) incs -> no_fault dims (fun r => sw_g (fst (fst r))) (lsm_run fuel maxSweeps goal init sweeps incs g)) /\
  (forall th step, no_fault dims dq_g (ddqm_run fuel goal init th step g)) /\
  (forall E, no_fault dims (fun r => fst (fst r)) (fim_run fuel E goal init g)) /\
  (forall dt, no_fault dims gm_g (gmm_run fuel dt goal init g)).
Proof.
  intros N L dims g init goal fuel [H2 Hlt] Hg Hr. split; [|split; [|split; [|split]]].
  - intros ms sw incs Hd. eapply safe_no_fault; [exact (s_fsm_run L dims H2 Hlt fuel ms goal init sw incs g Hg Hr Hd)|]. intros a Ha; exact Ha.
  - intros ms sw incs Hd. eapply safe_no_fault; [exact (s_lsm_run L dims H2 Hlt fuel ms goal init sw incs g Hg Hr Hd)|]. intros a Ha; exact Ha.
  - intros th step. eapply safe_no_fault; [exact (s_ddqm_run L dims H2 Hlt fuel goal init th step g Hg Hr)|]. intros a [Ha _]; exact Ha.
  - intros E. eapply safe_no_fault; [exact (s_fim_run L dims H2 Hlt fuel E goal init g Hg Hr)|]. intros a [Ha _]; exact Ha.
  - intros dt. eapply safe_no_fault; [exact (s_gmm_run L dims H2 Hlt fuel dt goal init g Hg Hr)|]. intros a [Ha _]; exact Ha.
Qed.
Print Assumptions C82_runs_stay_inside_the_grid.

(** the lists of FIM and GMM and the queues of DDQM hold cells of the grid *)
Theorem C82_lists_hold_cells :
  forall (N : Num) (L : NumLaws N) dims (g : grid N) init goal fuel,
  shape_ok dims -> grid_ok dims g -> (forall i, In i init -> 0 <= i < box_size dims) ->
  (forall th step s x, ddqm_run fuel goal init th step g = Ok s -> In x (dq_lo s) \/ In x (dq_hi s) -> 0 <= x < box_size dims) /\
  (forall E g' l ub x, fim_run fuel E goal init g = Ok (g', l, ub) -> In x l -> 0 <= x < box_size dims) /\
  (forall dt s x, gmm_run fuel dt goal init g = Ok s -> In x (gm_l s) -> 0 <= x < box_size dims).
Proof.
  intros N L dims g init goal fuel [H2 Hlt] Hg Hr. split; [|split].
  - intros th step s x H. pose proof (s_ddqm_run L dims H2 Hlt fuel goal init th step g Hg Hr) as K. rewrite H in K. destruct K as [_ [A B]]. intros [K|K]; [exact (A x K)|exact (B x K)].
  - intros E g' l ub x H Hx. pose proof (s_fim_run L dims H2 Hlt fuel E goal init g Hg Hr) as K. rewrite H in K. exact (proj2 K x Hx).
  - intros dt s x H Hx. pose proof (s_gmm_run L dims H2 Hlt fuel dt goal init g Hg Hr) as K. rewrite H in K. exact (proj2 K x Hx).
Qed.
Print Assumptions C82_lists_hold_cells.

(** ** C83 *)
(** The calls of a solver class: constructor, setEnvironment, setInitialAndGoalPoints, compute, reset. *)
Record api (N : Num) := mkApi {
  a_obj : Type;
  a_new : a_obj;
  a_env : a_obj -> option (grid N) -> res (a_obj * grid N);
  a_pts : a_obj -> list Z -> Z -> a_obj;
  a_comp : nat -> a_obj -> grid N -> res (a_obj * grid N);
  a_reset : a_obj -> grid N -> res (a_obj * grid N)
}.
Arguments a_obj {N}. Arguments a_new {N}. Arguments a_env {N}. Arguments a_pts {N}. Arguments a_comp {N}. Arguments a_reset {N}.

(** What an application asks of a solver: answer a query (points, compute, then reset), or
    switch to another map. *)
Inductive request (N : Num) := Query (init : list Z) (goal : Z) (fuel : nat) | NewMap (m : grid N).
Arguments Query {N}. Arguments NewMap {N}.

Section C83.
Context {N : Num}.
Implicit Types (A : api N) (g m : grid N).

Fixpoint serve A (o : a_obj A) g (rs : list (request N)) : res (a_obj A * grid N) :=
  match rs with
  | [] => Ok (o, g)
  | Query init goal fuel :: r => '(o1, g1) <- a_comp A fuel (a_pts A o init goal) g ;; '(o2, g2) <- a_reset A o1 g1 ;; serve A o2 g2 r
  | NewMap m :: r => '(o1, g1) <- a_env A o (Some m) ;; serve A o1 g1 r
  end.

(** the grid after a query *)
Definition answer A (o : a_obj A) g (init : list Z) (goal : Z) (fuel : nat) : res (grid N) :=
  '(_, g1) <- a_comp A fuel (a_pts A o init goal) g ;; Ok g1.

(** the grid a newly constructed solver computes on map [m] *)
Definition fresh_answer A m init goal fuel : res (grid N) :=
  '(o, g) <- a_env A (a_new A) (Some m) ;; answer A o g init goal fuel.

(** the map in use after a history that starts with map [m] *)
Fixpoint last_map m (rs : list (request N)) : grid N :=
  match rs with [] => m | Query _ _ _ :: r => last_map m r | NewMap m' :: r => last_map m' r end.
Definition all_maps (P : grid N -> Prop) m (rs : list (request N)) : Prop := P m /\ forall m', In (NewMap m') rs -> P m'.
Definition all_goals (P : Z -> Prop) (rs : list (request N)) : Prop := forall i k f, In (Query i k f) rs -> P k.

(** after any history the answer to any query is that of a new solver on the same map *)
Definition history_independent A (good_map : grid N -> Prop) (good_goal : Z -> Prop) (good_history : list (request N) -> Prop) : Prop :=
  forall m rs o g, all_maps good_map m rs -> all_goals good_goal rs -> good_history rs ->
  ('(o0, g0) <- a_env A (a_new A) (Some m) ;; serve A o0 g0 rs) = Ok (o, g) ->
  forall init goal fuel, good_goal goal -> answer A o g init goal fuel = fresh_answer A (last_map m rs) init goal fuel.

Definition any_goal (k : Z) : Prop := True.
Definition any_history (rs : list (request N)) : Prop := True.
(** the map is never changed *)
Definition one_map (rs : list (request N)) : Prop := forall m, ~ In (NewMap m) rs.

(** *** proof scheme *)
Section Scheme.
Variable A : api N.
Variable good : grid N -> Prop.
Variable gg : Z -> Prop.
Variable idle : a_obj A -> grid N -> grid N -> Prop.
Hypothesis start : forall m o g, good m -> a_env A (a_new A) (Some m) = Ok (o, g) -> idle o m g.
Hypothesis query : forall o m g i k f o1 g1, good m -> gg k -> idle o m g -> a_comp A f (a_pts A o i k) g = Ok (o1, g1) ->
  exists o2 g2, a_reset A o1 g1 = Ok (o2, g2) /\ idle o2 m g2.
Hypothesis same : forall o m g i k f, good m -> gg k -> idle o m g -> answer A o g i k f = fresh_answer A m i k f.

Lemma serve_idle_one m : good m -> forall rs o g o' g', one_map rs -> all_goals gg rs -> idle o m g -> serve A o g rs = Ok (o', g') -> idle o' (last_map m rs) g'.
Proof.
  intros Hm. induction rs as [|[i k f|m'] r IH]; intros o g o' g' H1 H2 HI H; cbn [serve last_map] in *.
  - inversion H; subst. exact HI.
  - apply bind_ok in H. destruct H as [[o1 g1] [Ha H]]. apply bind_ok in H. destruct H as [[o2 g2] [Hb H]].
    destruct (query o m g i k f o1 g1 Hm (H2 i k f (or_introl eq_refl)) HI Ha) as [o3 [g3 [E1 E2]]]. rewrite E1 in Hb. inversion Hb; subst.
    apply (IH o2 g2 o' g'); auto. { intros x Hx. apply (H1 x). right; exact Hx. } { intros a b c Hx. apply (H2 a b c). right; exact Hx. }
  - exfalso. apply (H1 m'). left; reflexivity.
Qed.

Lemma scheme_one : history_independent A good gg one_map.
Proof.
  intros m rs o g [Hm _] Hgo Hh H i k f Hk. apply bind_ok in H. destruct H as [[o0 g0] [H0 H]].
  assert (E : last_map m rs = m). { clear -Hh. induction rs as [|[i k f|m'] r IH]; cbn [last_map]; [reflexivity|apply IH; intros x Hx; apply (Hh x); right; exact Hx|exfalso; apply (Hh m'); left; reflexivity]. }
  rewrite E. apply same; auto. rewrite <- E. exact (serve_idle_one m Hm rs o0 g0 o g Hh Hgo (start m o0 g0 Hm H0) H).
Qed.

Hypothesis switch : forall o m g m' o1 g1, good m -> good m' -> idle o m g -> a_env A o (Some m') = Ok (o1, g1) -> idle o1 m' g1.
Lemma serve_idle : forall rs m o g o' g', all_maps good m rs -> all_goals gg rs -> idle o m g -> serve A o g rs = Ok (o', g') -> idle o' (last_map m rs) g'.
Proof.
  induction rs as [|[i k f|m'] r IH]; intros m o g o' g' [Hm Hall] H2 HI H; cbn [serve last_map] in *.
  - inversion H; subst. exact HI.
  - apply bind_ok in H. destruct H as [[o1 g1] [Ha H]]. apply bind_ok in H. destruct H as [[o2 g2] [Hb H]].
    destruct (query o m g i k f o1 g1 Hm (H2 i k f (or_introl eq_refl)) HI Ha) as [o3 [g3 [E1 E2]]]. rewrite E1 in Hb. inversion Hb; subst.
    apply (IH m o2 g2 o' g'); auto. { split; [exact Hm|]. intros x Hx. apply Hall. right; exact Hx. } { intros a b c Hx. apply (H2 a b c). right; exact Hx. }
  - apply bind_ok in H. destruct H as [[o1 g1] [Ha H]]. pose proof (Hall m' (or_introl eq_refl)) as Hm'.
    apply (IH m' o1 g1 o' g'); auto.
    + split; [exact Hm'|]. intros x Hx. apply Hall. right; exact Hx.
    + intros a b c Hx. apply (H2 a b c). right; exact Hx.
    + exact (switch o m g m' o1 g1 Hm Hm' HI Ha).
Qed.
Lemma last_good : forall rs m, all_maps good m rs -> good (last_map m rs).
Proof.
  induction rs as [|[i k f|m'] r IH]; intros m [Hm Hall]; cbn [last_map]; [exact Hm| |].
  - apply IH. split; [exact Hm|]. intros x Hx. apply Hall. right; exact Hx.
  - apply IH. split; [apply Hall; left; reflexivity|]. intros x Hx. apply Hall. right; exact Hx.
Qed.
Lemma scheme : history_independent A good gg any_history.
Proof.
  intros m rs o g Hall Hgo _ H i k f Hk. apply bind_ok in H. destruct H as [[o0 g0] [H0 H]].
  apply same; [apply last_good; exact Hall|exact Hk|]. exact (serve_idle rs m o0 g0 o g Hall Hgo (start m o0 g0 (proj1 Hall) H0) H).
Qed.
End Scheme.
End C83.

(** *** the solver classes *)
Definition fmm_api {N : Num} (HO : HeapOps N) (h : HeurStrategy) : api N :=
  mkApi N (fmm_obj HO) (fmm_new HO h) (fmm_setEnvironment HO) (fmm_setPoints HO) (fmm_compute HO) (fmm_reset HO).
Definition fsm_api {N : Num} (maxSweeps : Z) : api N :=
  mkApi N fsm_obj (fsm_new maxSweeps) fsm_setEnvironment fsm_setPoints fsm_compute fsm_reset.
Definition lsm_api {N : Num} (maxSweeps : Z) : api N :=
  mkApi N fsm_obj (fsm_new maxSweeps) fsm_setEnvironment fsm_setPoints lsm_compute lsm_reset.
Definition fim_api {N : Num} (E : N) : api N :=
  mkApi N fim_obj (fim_new E) fim_setEnvironment fim_setPoints fim_compute fim_reset.
Definition gmm_api {N : Num} (dt : N) : api N :=
  mkApi N gmm_obj (gmm_new dt) gmm_setEnvironment gmm_setPoints gmm_compute gmm_reset.
Definition ufmm_api {N : Num} (size : Z) (inc : N) : api N :=
  mkApi N ufmm_obj (ufmm_new size inc) ufmm_setEnvironment ufmm_setPoints ufmm_compute ufmm_reset.

Section Inst.
Context {N : Num}.
Implicit Types (g m : grid N).

Definition resting (s : solver) : Prop := sv_grid s = GSet /\ sv_setup s = false.
Lemma resting_pts s i k : resting s -> setInitialAndGoalPoints s i k = mkSolver GSet false i (Some (u32 k)).
Proof. intros [A B]. unfold setInitialAndGoalPoints. rewrite A, B. reflexivity. Qed.

(** FMM and SFMM, whatever the heap *)
Definition fmm_idle (HO : HeapOps N) (o : a_obj (fmm_api HO NOHEUR)) (m g : grid N) : Prop := exists s, resting s /\ o = mkFmm s (hempty HO) NOHEUR [] false [] /\ g = clean m.
Lemma fmm_query (HO : HeapOps N) : forall (o : a_obj (fmm_api HO NOHEUR)) m g i k f o1 g1, flag_is_true m -> fmm_idle HO o m g -> a_comp (fmm_api HO NOHEUR) f (a_pts (fmm_api HO NOHEUR) o i k) g = Ok (o1, g1) ->
  exists o2 g2, a_reset (fmm_api HO NOHEUR) o1 g1 = Ok (o2, g2) /\ fmm_idle HO o2 m g2.
Proof.
  intros o m g i k f o1 g1 Hm [s [Hs [-> ->]]] H. cbn in H. unfold fmm_setPoints, fmm_with_solver in H. cbn in H. rewrite (resting_pts s i k Hs) in H.
    match type of H with fmm_compute HO f ?o0 _ = _ => destruct (fmm_reset_compute HO o0 o1 (clean m) g1 f (clean_flag m) (clean_default m Hm) eq_refl eq_refl H) as [o2 [E _]] end.
    exists o2, (clean m). split; [exact E|].
    unfold fmm_compute in H. cbn [fo_s sv_setup] in H. apply bind_ok in H. destruct H as [[oa ga] [Ha H]].
    destruct (fmm_setup_cases _ _ _ _ _ Ha) as [s1 [kk [H1 [Hk Hc]]]]. destruct Hc as [[_ ->]|[[K _]|[K _]]]; try (exfalso; apply K; reflexivity).
    pose proof (solver_setup_ok _ _ _ _ H1) as [Es1 _]. cbn [fo_s fo_strat fo_dist fo_pre fo_coord fo_band] in H.
    apply bind_ok in H. destruct H as [k2 [_ H]]. apply bind_ok in H. destruct H as [[st log] [_ H]]. inversion H; subst o1 g1.
    cbn in E. unfold fmm_reset, solver_reset in E. cbn [fo_s fo_strat fo_dist fo_pre fo_coord] in E. rewrite Es1 in E. cbn [sv_grid bind] in E. injection E as Eo2 _. rewrite <- Eo2.
    eexists. split; [|split; [reflexivity|reflexivity]]. split; reflexivity.
Qed.
Theorem C83_fmm : forall (HO : HeapOps N), history_independent (fmm_api HO NOHEUR) flag_is_true any_goal any_history.
Proof.
  intros HO. apply (scheme (fmm_api HO NOHEUR) flag_is_true any_goal (fmm_idle HO)).
  - intros m o g Hm H. inversion H; subst. eexists. split; [|split; reflexivity]. split; reflexivity.
  - intros o m g i k f o1 g1 Hm _ HI H. exact (fmm_query HO o m g i k f o1 g1 Hm HI H).
  - intros o m g i k f Hm _ [s [Hs [-> ->]]]. unfold fresh_answer, answer. cbn. unfold fmm_setPoints, fmm_with_solver. cbn. rewrite (resting_pts s i k Hs). reflexivity.
  - intros o m g m' o1 g1 Hm Hm' [s [Hs [-> ->]]] H. inversion H; subst. eexists. split; [|split; reflexivity]. split; [reflexivity|apply Hs].
Qed.
Print Assumptions C83_fmm.

Definition fim_idle (E : N) (o : a_obj (fim_api E)) (m g : grid N) : Prop := exists s, resting s /\ o = mkFimObj s [] E /\ g = clean m.
Lemma fim_query (E : N) : forall (o : a_obj (fim_api E)) m g i k f o1 g1, flag_is_true m -> fim_idle E o m g -> a_comp (fim_api E) f (a_pts (fim_api E) o i k) g = Ok (o1, g1) ->
  exists o2 g2, a_reset (fim_api E) o1 g1 = Ok (o2, g2) /\ fim_idle E o2 m g2.
Proof.
  intros o m g i k f o1 g1 Hm [s [Hs [-> ->]]] H. cbn in H. unfold fim_setPoints in H. cbn in H. rewrite (resting_pts s i k Hs) in H.
    match type of H with fim_compute f ?o0 _ = _ => destruct (fim_reset_compute o0 o1 (clean m) g1 f (clean_flag m) (clean_default m Hm) eq_refl eq_refl H) as [o2 [Er _]] end.
    exists o2, (clean m). split; [exact Er|].
    unfold fim_compute, ensure_setup in H. cbn [io_s io_list io_E sv_setup] in H. apply bind_ok in H. destruct H as [[s1 gb] [H1 H]].
    apply bind_ok in H. destruct H as [k2 [_ H]]. apply bind_ok in H. destruct H as [[[g2 l] ub] [_ H]]. inversion H; subst o1 g1.
    pose proof (solver_setup_ok _ _ _ _ H1) as [Es1 _]. cbn in Er. unfold fim_reset, solver_reset in Er. cbn [io_s io_E] in Er. rewrite Es1 in Er. cbn [sv_grid bind] in Er. injection Er as Eo2 _. rewrite <- Eo2.
    eexists. split; [|split; reflexivity]. split; reflexivity.
Qed.
Theorem C83_fim : forall (E : N), history_independent (fim_api E) flag_is_true any_goal any_history.
Proof.
  intros E. apply (scheme (fim_api E) flag_is_true any_goal (fim_idle E)).
  - intros m o g Hm H. inversion H; subst. eexists. split; [|split; reflexivity]. split; reflexivity.
  - intros o m g i k f o1 g1 Hm _ HI H. exact (fim_query E o m g i k f o1 g1 Hm HI H).
  - intros o m g i k f Hm _ [s [Hs [-> ->]]]. unfold fresh_answer, answer. cbn. unfold fim_setPoints. cbn. rewrite (resting_pts s i k Hs). reflexivity.
  - intros o m g m' o1 g1 Hm Hm' [s [Hs [-> ->]]] H. inversion H; subst. eexists. split; [|split; reflexivity]. split; [reflexivity|apply Hs].
Qed.

Definition ufmm_idle size (inc : N) (o : a_obj (ufmm_api size inc)) (m g : grid N) : Prop := exists s, resting s /\ o = mkUfmmObj s (uq_new size inc) /\ g = clean m.
Lemma ufmm_query size (inc : N) : forall (o : a_obj (ufmm_api size inc)) m g i k f o1 g1, flag_is_true m -> ufmm_idle size inc o m g -> a_comp (ufmm_api size inc) f (a_pts (ufmm_api size inc) o i k) g = Ok (o1, g1) ->
  exists o2 g2, a_reset (ufmm_api size inc) o1 g1 = Ok (o2, g2) /\ ufmm_idle size inc o2 m g2.
Proof.
  intros o m g i k f o1 g1 Hm [s [Hs [-> ->]]] H. cbn in H. unfold ufmm_setPoints in H. cbn in H. rewrite (resting_pts s i k Hs) in H.
    match type of H with ufmm_compute f ?o0 _ = _ => destruct (ufmm_reset_compute size inc o0 o1 (clean m) g1 f (clean_flag m) (clean_default m Hm) eq_refl eq_refl H) as [o2 [Er _]] end.
    exists o2, (clean m). split; [exact Er|].
    unfold ufmm_compute, ensure_setup in H. cbn [uo_s uo_q sv_setup] in H. apply bind_ok in H. destruct H as [[s1 gb] [H1 H]].
    apply bind_ok in H. destruct H as [k2 [_ H]]. apply bind_ok in H. destruct H as [[st log] [Hr H]]. inversion H; subst o1 g1.
    pose proof (ufmm_run_same _ _ _ _ _ _ _ Hr) as [Q1 [Q2 [Q3 Q4]]]. cbn in Q1, Q2, Q3, Q4.
    assert (EQ : uq_clear (uf_q st) = uq_new size inc).
    { unfold uq_clear, uq_new. rewrite Q2, Q3, Q4. f_equal. rewrite repeat_length in Q1. rewrite <- Q1.
      generalize (uq_tab (uf_q st)) as l. induction l; cbn; congruence. }
    pose proof (solver_setup_ok _ _ _ _ H1) as [Es1 _]. cbn in Er. unfold ufmm_reset, solver_reset in Er. cbn [uo_s uo_q] in Er. rewrite Es1, EQ in Er. cbn [sv_grid bind] in Er. injection Er as Eo2 _. rewrite <- Eo2.
    eexists. split; [|split; reflexivity]. split; reflexivity.
Qed.
Theorem C83_ufmm : forall size (inc : N), history_independent (ufmm_api size inc) flag_is_true any_goal any_history.
Proof.
  intros size inc. apply (scheme (ufmm_api size inc) flag_is_true any_goal (ufmm_idle size inc)).
  - intros m o g Hm H. inversion H; subst. eexists. split; [|split; reflexivity]. split; reflexivity.
  - intros o m g i k f o1 g1 Hm _ HI H. exact (ufmm_query size inc o m g i k f o1 g1 Hm HI H).
  - intros o m g i k f Hm _ [s [Hs [-> ->]]]. unfold fresh_answer, answer. cbn. unfold ufmm_setPoints. cbn. rewrite (resting_pts s i k Hs). reflexivity.
  - intros o m g m' o1 g1 Hm Hm' [s [Hs [-> ->]]] H. inversion H; subst. eexists. split; [|split; reflexivity]. split; [reflexivity|apply Hs].
Qed.

(** FSM: incs_ is uninitialised in a new object and left over in a used one; setup() sets it *)
Definition fsm_idle ms (o : a_obj (fsm_api (N := N) ms)) (m g : grid N) : Prop := exists s incs, resting s /\ o = mkFsm s 0 (u32 ms) incs (s_dims (g_sh (clean m))) /\ g = clean m.
Lemma fsm_query ms : forall (o : a_obj (fsm_api (N := N) ms)) m g i k f o1 g1, flag_is_true m -> fsm_idle ms o m g -> a_comp (fsm_api (N := N) ms) f (a_pts (fsm_api (N := N) ms) o i k) g = Ok (o1, g1) ->
  exists o2 g2, a_reset (fsm_api (N := N) ms) o1 g1 = Ok (o2, g2) /\ fsm_idle ms o2 m g2.
Proof.
  intros o m g i k f o1 g1 Hm [s [incs [Hs [-> ->]]]] H. cbn in H. unfold fsm_setPoints in H. cbn in H. rewrite (resting_pts s i k Hs) in H.
    match type of H with fsm_compute f ?o0 _ = _ => destruct (fsm_reset_compute o0 o1 (clean m) g1 f (clean_flag m) (clean_default m Hm) eq_refl eq_refl H) as [o2 [Er _]] end.
    exists o2, (clean m). split; [exact Er|].
    unfold fsm_compute, sweep_compute, fsm_setup in H. cbn [so_s so_sweeps so_max so_incs so_dims sv_setup] in H. apply bind_ok in H. destruct H as [[oa ga] [Ha H]].
    apply bind_ok in Ha. destruct Ha as [[s1 gb] [H1 Ha]]. inversion Ha; subst oa ga. cbn [so_s so_sweeps so_max so_incs so_dims] in H.
    apply bind_ok in H. destruct H as [k2 [_ H]]. apply bind_ok in H. destruct H as [[[st sw] incs'] [Hr H]]. inversion H; subst o1 g1.
    pose proof (solver_setup_ok _ _ _ _ H1) as [Es1 _]. cbn in Er. unfold fsm_reset, solver_reset in Er. cbn [so_s so_max so_dims] in Er. rewrite Es1 in Er. cbn [sv_grid bind] in Er. injection Er as Eo2 _. rewrite <- Eo2.
    do 2 eexists. split; [|split; reflexivity]. split; reflexivity.
Qed.
Theorem C83_fsm : forall maxSweeps, history_independent (N := N) (fsm_api maxSweeps) flag_is_true any_goal any_history.
Proof.
  intros ms. apply (scheme (fsm_api (N := N) ms) flag_is_true any_goal (fsm_idle ms)).
  - intros m o g Hm H. inversion H; subst. do 2 eexists. split; [|split; reflexivity]. split; reflexivity.
  - intros o m g i k f o1 g1 Hm _ HI H. exact (fsm_query ms o m g i k f o1 g1 Hm HI H).
  - intros o m g i k f Hm _ [s [incs [Hs [-> ->]]]]. unfold fresh_answer, answer. cbn. unfold fsm_setPoints. cbn. rewrite (resting_pts s i k Hs). reflexivity.
  - intros o m g m' o1 g1 Hm Hm' [s [incs [Hs [-> ->]]]] H. inversion H; subst. do 2 eexists. split; [|split; reflexivity]. split; [reflexivity|apply Hs].
Qed.

(** the map has the shape the index arithmetic supports *)
Definition fits (m : grid N) : Prop := flag_is_true m /\ exists dims, proper dims /\ box_size dims < 4294967296 /\ grid_ok dims m.

Lemma clean_fits m : fits m -> exists dims, proper dims /\ box_size dims < 4294967296 /\ grid_ok dims (clean m).
Proof.
  intros [_ [dims [Hp [Hlt Hg]]]]. exists dims. split; [exact Hp|]. split; [exact Hlt|].
  unfold clean. destruct (negb (g_clean m)); [|exact Hg]. destruct Hg as [G1 G2]. split; [exact G1|]. cbn [g_cells]. rewrite map_length. exact G2.
Qed.

Lemma lsm_frozen dims fuel ms k init sw incs g : proper dims -> box_size dims < 4294967296 -> grid_ok dims g ->
  lsm_run fuel ms k init sw incs (setClean (frozen_copy g) false) = lsm_run fuel ms k init sw incs (setClean g false).
Proof.
  intros Hp Hlt Hg. unfold lsm_run. rewrite (freeze_all_eq dims (setClean g false) Hp Hlt) by (destruct Hg; split; assumption).
  rewrite (freeze_all_eq dims (setClean (frozen_copy g) false) Hp Hlt).
  2:{ destruct Hg as [G1 G2]. split; [exact G1|]. cbn. rewrite map_length. exact G2. }
  rewrite frozen_twice. reflexivity.
Qed.

Lemma lsm_compute_frozen dims fuel s sw mx incs ds g : proper dims -> box_size dims < 4294967296 -> grid_ok dims g -> sv_setup s = false ->
  lsm_compute fuel (mkFsm s sw mx incs ds) (frozen_copy g) = lsm_compute fuel (mkFsm s sw mx incs ds) g.
Proof.
  intros Hp Hlt Hg Hs. unfold lsm_compute, sweep_compute, fsm_setup, solver_setup. cbn [so_s so_sweeps so_max so_incs so_dims]. rewrite Hs, sanityChecks_frozen.
  destruct (sanityChecks s g) as [err|e]; cbn [bind]; [|reflexivity]. destruct (negb (err =? 0)); cbn [bind]; [reflexivity|].
  cbn [so_s so_sweeps so_max so_incs so_dims]. destruct (goal_of _) as [k|e]; cbn [bind]; [|reflexivity]. rewrite (lsm_frozen dims) by assumption. reflexivity.
Qed.

Definition lsm_idle ms (o : a_obj (lsm_api (N := N) ms)) (m g : grid N) : Prop := exists s incs, resting s /\ o = mkFsm s 0 (u32 ms) incs (s_dims (g_sh (clean m))) /\ (g = clean m \/ g = frozen_copy (clean m)).
Lemma lsm_query ms : forall (o : a_obj (lsm_api (N := N) ms)) m g i k f o1 g1, fits m -> lsm_idle ms o m g -> a_comp (lsm_api (N := N) ms) f (a_pts (lsm_api (N := N) ms) o i k) g = Ok (o1, g1) ->
  exists o2 g2, a_reset (lsm_api (N := N) ms) o1 g1 = Ok (o2, g2) /\ lsm_idle ms o2 m g2.
Proof.
  intros o m g i k f o1 g1 Hm [s [incs [Hs [-> Hg]]]] H. destruct (clean_fits m Hm) as [dims [Hp [Hlt Hok]]].
    cbn in H. unfold fsm_setPoints in H. cbn in H. rewrite (resting_pts s i k Hs) in H.
    assert (H' : lsm_compute f (mkFsm (mkSolver GSet false i (Some (u32 k))) 0 (u32 ms) incs (s_dims (g_sh (clean m)))) (clean m) = Ok (o1, g1)).
    { destruct Hg as [->| ->]; [exact H|]. rewrite (lsm_compute_frozen dims) in H by auto. exact H. }
    clear H. rename H' into H.
    match type of H with lsm_compute f ?o0 _ = _ => destruct (lsm_reset_compute dims o0 o1 (clean m) g1 f Hp Hlt Hok (clean_flag m) (clean_default m (proj1 Hm)) eq_refl eq_refl H) as [o2 [Er _]] end.
    exists o2, (frozen_copy (clean m)). split; [exact Er|].
    unfold lsm_compute, sweep_compute, fsm_setup in H. cbn [so_s so_sweeps so_max so_incs so_dims sv_setup] in H. apply bind_ok in H. destruct H as [[oa ga] [Ha H]].
    apply bind_ok in Ha. destruct Ha as [[s1 gb] [H1 Ha]]. inversion Ha; subst oa ga. cbn [so_s so_sweeps so_max so_incs so_dims] in H.
    apply bind_ok in H. destruct H as [k2 [_ H]]. apply bind_ok in H. destruct H as [[[st sw] incs'] [Hr H]]. inversion H; subst o1 g1.
    pose proof (solver_setup_ok _ _ _ _ H1) as [Es1 _]. cbn in Er. unfold lsm_reset, fsm_reset, solver_reset in Er. cbn [so_s so_max so_dims] in Er. rewrite Es1 in Er. cbn [sv_grid bind] in Er.
    apply bind_ok in Er. destruct Er as [g9 [_ Er]]. injection Er as Eo2 _. rewrite <- Eo2.
    do 2 eexists. split; [|split; [reflexivity|right; reflexivity]]. split; reflexivity.
Qed.
Theorem C83_lsm : forall maxSweeps, history_independent (N := N) (lsm_api maxSweeps) fits any_goal any_history.
Proof.
  intros ms. apply (scheme (lsm_api (N := N) ms) fits any_goal (lsm_idle ms)).
  - intros m o g Hm H. inversion H; subst. do 2 eexists. split; [|split; [reflexivity|left; reflexivity]]. split; reflexivity.
  - intros o m g i k f o1 g1 Hm _ HI H. exact (lsm_query ms o m g i k f o1 g1 Hm HI H).
  - intros o m g i k f Hm _ [s [incs [Hs [-> Hg]]]]. destruct (clean_fits m Hm) as [dims [Hp [Hlt Hok]]]. unfold fresh_answer, answer. cbn. unfold fsm_setPoints. cbn. rewrite (resting_pts s i k Hs).
    destruct Hg as [->| ->]; [|rewrite (lsm_compute_frozen dims) by auto]; reflexivity.
  - intros o m g m' o1 g1 Hm Hm' [s [incs [Hs [-> _]]]] H. inversion H; subst. do 2 eexists. split; [|split; [reflexivity|left; reflexivity]]. split; [reflexivity|apply Hs].
Qed.
Print Assumptions C83_lsm.

(** GMM: a step given by the user (not negative) is used on every map; the default step is
    that of the first map (C37), so that the map must stay *)
Definition gmm_idle (dt : N) (o : a_obj (gmm_api dt)) (m g : grid N) : Prop := exists s, resting s /\ o = mkGmmObj s dt [] /\ g = clean m.
Lemma gmm_query (dt : N) : nltb dt n0 = false -> forall (o : a_obj (gmm_api dt)) m g i k f o1 g1, flag_is_true m -> gmm_idle dt o m g -> a_comp (gmm_api dt) f (a_pts (gmm_api dt) o i k) g = Ok (o1, g1) ->
  exists o2 g2, a_reset (gmm_api dt) o1 g1 = Ok (o2, g2) /\ gmm_idle dt o2 m g2.
Proof.
  intros Hdt. assert (Ed : forall g, gmm_setup_dt dt g = dt) by (intros g; unfold gmm_setup_dt; rewrite Hdt; reflexivity).
  intros o m g i k f o1 g1 Hm [s [Hs [-> ->]]] H. cbn in H. unfold gmm_setPoints in H. cbn in H. rewrite (resting_pts s i k Hs) in H.
    match type of H with gmm_compute f ?o0 _ = _ => destruct (gmm_reset_compute o0 o1 (clean m) g1 f (clean_flag m) (clean_default m Hm) eq_refl eq_refl H) as [o2 [Er _]] end.
    exists o2, (clean m). split; [exact Er|].
    unfold gmm_compute, gmm_setup in H. cbn [go_s go_dt go_gamma sv_setup] in H. apply bind_ok in H. destruct H as [[oa ga] [Ha H]].
    apply bind_ok in Ha. destruct Ha as [[s1 gb] [H1 Ha]]. inversion Ha; subst oa ga. cbn [go_s go_dt go_gamma] in H.
    apply bind_ok in H. destruct H as [k2 [_ H]]. apply bind_ok in H. destruct H as [r [_ H]]. rewrite Ed in H. inversion H; subst o1 g1.
    pose proof (solver_setup_ok _ _ _ _ H1) as [Es1 _]. cbn in Er. unfold gmm_reset, solver_reset in Er. cbn [go_s go_dt] in Er. rewrite Es1 in Er. cbn [sv_grid bind] in Er. injection Er as Eo2 _. rewrite <- Eo2.
    eexists. split; [|split; reflexivity]. split; reflexivity.
Qed.
Theorem C83_gmm_given_step : forall (dt : N), nltb dt n0 = false -> history_independent (gmm_api dt) flag_is_true any_goal any_history.
Proof.
  intros dt Hdt. apply (scheme (gmm_api dt) flag_is_true any_goal (gmm_idle dt)).
  - intros m o g Hm H. inversion H; subst. eexists. split; [|split; reflexivity]. split; reflexivity.
  - intros o m g i k f o1 g1 Hm _ HI H. exact (gmm_query dt Hdt o m g i k f o1 g1 Hm HI H).
  - intros o m g i k f Hm _ [s [Hs [-> ->]]]. unfold fresh_answer, answer. cbn. unfold gmm_setPoints. cbn. rewrite (resting_pts s i k Hs). reflexivity.
  - intros o m g m' o1 g1 Hm Hm' [s [Hs [-> ->]]] H. inversion H; subst. eexists. split; [|split; reflexivity]. split; [reflexivity|apply Hs].
Qed.

Lemma dt_twice dt g : gmm_setup_dt (gmm_setup_dt dt g) g = gmm_setup_dt (N := N) dt g.
Proof.
  unfold gmm_setup_dt at 1. destruct (nltb (gmm_setup_dt dt g) n0) eqn:E1; [|reflexivity].
  unfold gmm_setup_dt in *. destruct (nltb dt n0) eqn:E2; [reflexivity|congruence].
Qed.

Theorem C83_gmm_default_step : forall (dt : N), history_independent (gmm_api dt) flag_is_true any_goal one_map.
Proof.
  intros dt. apply (scheme_one (gmm_api dt) flag_is_true any_goal (fun o m g => exists s d, resting s /\ (d = dt \/ d = gmm_setup_dt dt (setClean (clean m) false)) /\ o = mkGmmObj s d [] /\ g = clean m)).
  - intros m o g Hm H. inversion H; subst. do 2 eexists. split; [|split; [left; reflexivity|split; reflexivity]]. split; reflexivity.
  - intros o m g i k f o1 g1 Hm _ [s [d [Hs [Hd [-> ->]]]]] H. cbn in H. unfold gmm_setPoints in H. cbn in H. rewrite (resting_pts s i k Hs) in H.
    match type of H with gmm_compute f ?o0 _ = _ => destruct (gmm_reset_compute o0 o1 (clean m) g1 f (clean_flag m) (clean_default m Hm) eq_refl eq_refl H) as [o2 [Er _]] end.
    exists o2, (clean m). split; [exact Er|].
    unfold gmm_compute, gmm_setup in H. cbn [go_s go_dt go_gamma sv_setup] in H. apply bind_ok in H. destruct H as [[oa ga] [Ha H]].
    apply bind_ok in Ha. destruct Ha as [[s1 gb] [H1 Ha]]. pose proof (solver_setup_ok _ _ _ _ H1) as [Es1 [Egb _]]. subst gb. inversion Ha; subst oa ga. cbn [go_s go_dt go_gamma] in H.
    apply bind_ok in H. destruct H as [k2 [_ H]]. apply bind_ok in H. destruct H as [r [_ H]]. inversion H; subst o1 g1.
    cbn in Er. unfold gmm_reset, solver_reset in Er. cbn [go_s go_dt] in Er. rewrite Es1 in Er. cbn [sv_grid bind] in Er. injection Er as Eo2 _. rewrite <- Eo2.
    assert (E2 : gmm_setup_dt d (setClean (clean m) false) = gmm_setup_dt dt (setClean (clean m) false)) by (destruct Hd as [-> | ->]; [reflexivity|apply dt_twice]).
    rewrite E2. eexists _, (gmm_setup_dt dt (setClean (clean m) false)). split; [|split; [right; reflexivity|split; [reflexivity|reflexivity]]]. split; reflexivity.
  - intros o m g i k f Hm _ [s [d [Hs [Hd [-> ->]]]]]. unfold fresh_answer, answer. cbn. unfold gmm_setPoints. cbn. rewrite (resting_pts s i k Hs).
    change (setInitialAndGoalPoints _ i k) with (mkSolver GSet false i (Some (u32 k))).
    destruct Hd as [-> | ->]; [reflexivity|]. unfold gmm_compute, gmm_setup. cbn [go_s go_dt go_gamma sv_setup].
    destruct (solver_setup (mkSolver GSet false i (Some (u32 k))) (clean m)) as [[s1 gb]|e] eqn:E1; cbn [bind]; [|reflexivity].
    pose proof (solver_setup_ok _ _ _ _ E1) as [_ [Egb _]]. subst gb. cbn [go_s go_dt go_gamma]. rewrite dt_twice. reflexivity.
Qed.

(** FMM* and SFMM*: on one map, as long as every query has a goal (after a query without
    goal the heuristic is off for good, C58) *)
Definition has_goal (k : Z) : Prop := s32 (u32 k) <> -1.
Theorem C83_fmmstar : forall (HO : HeapOps N) h, history_independent (fmm_api HO h) flag_is_true has_goal one_map.
Proof.
  intros HO h. apply (scheme_one (fmm_api HO h) flag_is_true has_goal (fun o m g => exists s d p c, resting s /\ o = mkFmm s (hempty HO) h d p c /\ g = clean m /\
    (p = true -> precomputeDistances (g_sh (clean m)) = Ok d))).
  - intros m o g Hm H. inversion H; subst. do 4 eexists. split; [|split; [reflexivity|split; [reflexivity|discriminate]]]. split; reflexivity.
  - intros o m g i k f o1 g1 Hm Hgk [s [d [p [c [Hs [-> [-> Hd]]]]]]] H. cbn in H. unfold fmm_setPoints, fmm_with_solver in H. cbn in H. rewrite (resting_pts s i k Hs) in H.
    match type of H with fmm_compute HO f ?o0 _ = _ => destruct (fmm_reset_compute HO o0 o1 (clean m) g1 f (clean_flag m) (clean_default m Hm) eq_refl eq_refl H) as [o2 [E _]] end.
    exists o2, (clean m). split; [exact E|].
    unfold fmm_compute in H. cbn [fo_s sv_setup] in H. apply bind_ok in H. destruct H as [[oa ga] [Ha H]].
    destruct (fmm_setup_cases _ _ _ _ _ Ha) as [s1 [kk [H1 [Hk Hc]]]].
    pose proof (solver_setup_ok _ _ _ _ H1) as [Es1 _]. cbn [fo_s fo_strat fo_dist fo_pre fo_coord fo_band] in *.
    assert (Ekk : kk = u32 k) by (rewrite Es1 in Hk; cbn in Hk; congruence). subst kk.
    assert (Eo : exists d' p' c', oa = mkFmm s1 (hempty HO) h d' p' c' /\ (p' = true -> precomputeDistances (g_sh (clean m)) = Ok d')).
    { destruct Hc as [[-> ->]|[[_ [K _]]|[_ [_ [gc [d1 [_ [K ->]]]]]]]]; [|contradiction|].
      - do 3 eexists. split; [reflexivity|exact Hd].
      - do 3 eexists. split; [reflexivity|]. intros _. destruct p; [rewrite K; auto|exact K]. }
    destruct Eo as [d' [p' [c' [-> Hd']]]]. cbn [fo_s fo_strat fo_dist fo_pre fo_coord fo_band] in H.
    apply bind_ok in H. destruct H as [k2 [_ H]]. apply bind_ok in H. destruct H as [[st log] [_ H]]. inversion H; subst o1 g1.
    cbn in E. unfold fmm_reset, solver_reset in E. cbn [fo_s fo_strat fo_dist fo_pre fo_coord] in E. rewrite Es1 in E. cbn [sv_grid bind] in E. injection E as Eo2 _. rewrite <- Eo2.
    do 4 eexists. split; [|split; [reflexivity|split; [reflexivity|exact Hd']]]. split; reflexivity.
  - intros o m g i k f Hm Hgk [s [d [p [c [Hs [-> [-> Hd]]]]]]]. unfold fresh_answer, answer. cbn. unfold fmm_setPoints, fmm_with_solver. cbn. rewrite (resting_pts s i k Hs).
    assert (ES : forall d1 p1 c1, fmm_setup HO (mkFmm (mkSolver GSet false i (Some (u32 k))) (hempty HO) h d1 p1 c1) (clean m) =
      match h with NOHEUR => '(s1, g1) <- solver_setup (mkSolver GSet false i (Some (u32 k))) (clean m) ;; k1 <- goal_of s1 ;; Ok (mkFmm s1 (hempty HO) h d1 p1 c1, g1)
      | _ => '(s1, g1) <- solver_setup (mkSolver GSet false i (Some (u32 k))) (clean m) ;; gc <- idx2coord (g_sh (clean m)) (u32 k) ;;
             d2 <- (if p1 then Ok d1 else precomputeDistances (g_sh (clean m))) ;; Ok (mkFmm s1 (hempty HO) h d2 true gc, g1) end).
    { intros d1 p1 c1. unfold fmm_setup, fmm_setHeuristics, fmm_with_solver. cbn [fo_s fo_strat fo_dist fo_pre fo_coord fo_band].
      destruct (solver_setup (mkSolver GSet false i (Some (u32 k))) (clean m)) as [[s1 gb]|e] eqn:E1; [|destruct h; reflexivity].
      pose proof (solver_setup_ok _ _ _ _ E1) as [Es1 [Egb _]]. cbn [bind]. rewrite Es1. unfold goal_of. cbn [sv_goal].
      destruct h; cbn [bind]; [cbn [fo_strat fo_s fo_band]; reflexivity| |].
      all: destruct (Z.eqb_spec (s32 (u32 k)) (-1)) as [K|_]; [contradiction|]; cbn [negb]; rewrite Egb; change (g_sh (setClean (clean m) false)) with (g_sh (clean m));
        destruct (idx2coord (g_sh (clean m)) (u32 k)) as [gc|e]; cbn [bind]; [|reflexivity]; destruct p1; [cbn [bind fo_strat]; reflexivity|];
        destruct (precomputeDistances (g_sh (clean m))); cbn [bind fo_strat]; reflexivity. }
    change (setInitialAndGoalPoints _ i k) with (mkSolver GSet false i (Some (u32 k))).
    unfold fmm_compute. cbn [fo_s sv_setup]. rewrite !ES. destruct h.
    + destruct (solver_setup (mkSolver GSet false i (Some (u32 k))) (clean m)) as [[s1 gb]|e]; cbn [bind]; [|reflexivity].
      destruct (goal_of s1) as [k1|e] eqn:Ek1; cbn [bind]; [|reflexivity]. cbn [fo_s fo_strat fo_dist fo_pre fo_coord fo_band]. rewrite Ek1. cbn [bind].
      rewrite (fmm_run_noheur HO (mkCfg NOHEUR d c)) by reflexivity. change (mkCfg NOHEUR [] []) with (@no_heur N).
      destruct (fmm_run HO f no_heur k1 (sv_init s1) gb (hempty HO)) as [[st lg]|e]; reflexivity.
    + destruct (solver_setup (mkSolver GSet false i (Some (u32 k))) (clean m)) as [[s1 gb]|e]; cbn [bind]; [|reflexivity].
      destruct (idx2coord (g_sh (clean m)) (u32 k)) as [gc|e]; cbn [bind]; [|reflexivity].
      destruct p; [rewrite (Hd eq_refl)|]; cbn [bind]; reflexivity.
    + destruct (solver_setup (mkSolver GSet false i (Some (u32 k))) (clean m)) as [[s1 gb]|e]; cbn [bind]; [|reflexivity].
      destruct (idx2coord (g_sh (clean m)) (u32 k)) as [gc|e]; cbn [bind]; [|reflexivity].
      destruct p; [rewrite (Hd eq_refl)|]; cbn [bind]; reflexivity.
Qed.
End Inst.

(** *** no history of valid requests ends in undefined behaviour *)
(** the points of a query are cells of the map, the goal may also be -1 *)
Definition points_in {N : Num} (m : grid N) (init : list Z) (goal : Z) : Prop :=
  forall dims, grid_ok dims m -> (forall i, In i init -> 0 <= i < box_size dims) /\ (goal = -1 \/ 0 <= goal < box_size dims).
Fixpoint points_fit {N : Num} (m : grid N) (rs : list (request N)) : Prop :=
  match rs with
  | [] => True
  | Query init goal _ :: r => points_in m init goal /\ points_fit m r
  | NewMap m' :: r => points_fit m' r
  end.
(** a map whose clean flag is true to its content, of a shape the index arithmetic supports *)
Definition good_map {N : Num} (m : grid N) : Prop := flag_is_true m /\ exists dims, shape_ok dims /\ grid_ok dims m.
Definition faultless {N : Num} (A : api N) (good : grid N -> Prop) : Prop :=
  forall m rs, all_maps good m rs -> points_fit m rs -> ('(o0, g0) <- a_env A (a_new A) (Some m) ;; serve A o0 g0 rs) <> Fail UB.

Section Faultless.
Context {N : Num}.
Implicit Types (g m : grid N).

Lemma clean_grid_ok dims m : grid_ok dims m -> grid_ok dims (clean m).
Proof. unfold clean. destruct (negb (g_clean m)); [|auto]. intros [A B]. split; [exact A|]. cbn [g_cells]. rewrite map_length. exact B. Qed.
Lemma setClean_grid_ok dims m b : grid_ok dims m -> grid_ok dims (setClean m b).
Proof. intros [A B]; split; assumption. Qed.

Lemma setup_total dims g init goal : shape_ok dims -> grid_ok dims g -> (forall i, In i init -> 0 <= i < box_size dims) -> goal = -1 \/ 0 <= goal < box_size dims ->
  solver_setup (mkSolver GSet false init (Some (u32 goal))) g = Fail (Exit 1) \/
  solver_setup (mkSolver GSet false init (Some (u32 goal))) g = Ok (mkSolver GSet true init (Some (u32 goal)), setClean g false).
Proof.
  intros [H2 Hlt] Hg Hi Hk.
  destruct (C38_setup_decides dims g (mkSolver GSet false [] None) init goal (dims2_proper' dims H2) ltac:(lia) Hg eq_refl Hi Hk) as [code [_ [_ [A B]]]].
  change (setInitialAndGoalPoints (mkSolver GSet false [] None) init goal) with (mkSolver GSet false init (Some (u32 goal))) in *.
  destruct (Z.eq_dec code 0) as [E|E]; [right|left; auto]. destruct (B E) as [s'' [K _]]. rewrite K. f_equal. f_equal. exact (proj1 (solver_setup_ok _ _ _ _ K)).
Qed.

Section F.
Variable A : api N.
Variable good : grid N -> Prop.
Variable idle : a_obj A -> grid N -> grid N -> Prop.
Hypothesis start : forall m, good m -> exists o g, a_env A (a_new A) (Some m) = Ok (o, g) /\ idle o m g.
Hypothesis query : forall o m g i k f o1 g1, good m -> idle o m g -> a_comp A f (a_pts A o i k) g = Ok (o1, g1) ->
  exists o2 g2, a_reset A o1 g1 = Ok (o2, g2) /\ idle o2 m g2.
Hypothesis switch : forall o m g m', good m -> good m' -> idle o m g -> exists o1 g1, a_env A o (Some m') = Ok (o1, g1) /\ idle o1 m' g1.
Hypothesis comp : forall o m g i k f, good m -> idle o m g -> points_in m i k -> a_comp A f (a_pts A o i k) g <> Fail UB.
Lemma faultless_scheme : faultless A good.
Proof.
  intros m rs Hall Hp. destruct (start m (proj1 Hall)) as [o [g [-> HI]]]. cbn [bind].
  revert m o g Hall Hp HI. induction rs as [|[i k f|m'] r IH]; intros m o g Hall Hp HI; cbn [serve points_fit] in *; [discriminate| |].
  - destruct Hp as [Hp1 Hp2]. pose proof (comp o m g i k f (proj1 Hall) HI Hp1) as Hc.
    destruct (a_comp A f (a_pts A o i k) g) as [[o1 g1]|e] eqn:E; cbn [bind]; [|exact Hc].
    destruct (query o m g i k f o1 g1 (proj1 Hall) HI E) as [o2 [g2 [-> HI2]]]. cbn [bind].
    apply (IH m); auto. split; [exact (proj1 Hall)|]. intros x Hx. apply Hall. right; exact Hx.
  - assert (Hm' : good m') by (apply Hall; left; reflexivity).
    destruct (switch o m g m' (proj1 Hall) Hm' HI) as [o1 [g1 [-> HI1]]]. cbn [bind].
    apply (IH m'); auto. split; [exact Hm'|]. intros x Hx. apply Hall. right; exact Hx.
Qed.
End F.
End Faultless.

Section FInst.
Context {N : Num} (L : NumLaws N).
Implicit Types (g m : grid N).

Lemma good_flag m : good_map m -> flag_is_true m. Proof. intros [A _]; exact A. Qed.
Lemma good_fits m : good_map m -> fits m.
Proof. intros [A [dims [[B C] D]]]. split; [exact A|]. exists dims. split; [apply dims2_proper'; exact B|]. split; [lia|exact D]. Qed.

Lemma bind_no_ub {A B} (x : res A) (k : A -> res B) : x <> Fail UB -> (forall a, x = Ok a -> k a <> Fail UB) -> bind x k <> Fail UB.
Proof. destruct x as [a|e]; cbn [bind]; [intros _ H; apply H; reflexivity|intros H _ K; apply H; congruence]. Qed.
Lemma safe_no_ub {A} (x : res A) P : safe x P -> x <> Fail UB.
Proof. intros H E. rewrite E in H. exact H. Qed.

(** what every compute on a rested solver starts with *)
Lemma setup_good m i k : good_map m -> points_in m i k -> exists dims, shape_ok dims /\ grid_ok dims (setClean (clean m) false) /\ grid_ok dims (clean m) /\ (forall x, In x i -> 0 <= x < box_size dims) /\ (k = -1 \/ 0 <= k < box_size dims) /\
  (solver_setup (mkSolver GSet false i (Some (u32 k))) (clean m) = Fail (Exit 1) \/
   solver_setup (mkSolver GSet false i (Some (u32 k))) (clean m) = Ok (mkSolver GSet true i (Some (u32 k)), setClean (clean m) false)).
Proof.
  intros [_ [dims [Hs Hg]]] Hp. destruct (Hp dims Hg) as [Hi Hk]. exists dims. split; [exact Hs|]. split; [apply setClean_grid_ok, clean_grid_ok, Hg|]. split; [apply clean_grid_ok, Hg|]. split; [exact Hi|]. split; [exact Hk|].
  apply (setup_total dims); auto. apply clean_grid_ok, Hg.
Qed.

Theorem C83_fim_faultless : forall (E : N), faultless (fim_api E) good_map.
Proof.
  intros E. apply (faultless_scheme (fim_api E) good_map (fim_idle E)).
  - intros m Hm. do 2 eexists. split; [reflexivity|]. eexists. split; [|split; reflexivity]. split; reflexivity.
  - intros o m g i k f o1 g1 Hm. apply fim_query. apply good_flag, Hm.
  - intros o m g m' _ _ [s [Hs [-> ->]]]. do 2 eexists. split; [reflexivity|]. eexists. split; [|split; reflexivity]. split; [reflexivity|apply Hs].
  - intros o m g i k f Hm [s [Hs [-> ->]]] Hp. cbn. unfold fim_setPoints. cbn [io_s io_list io_E]. rewrite (resting_pts s i k Hs).
    destruct (setup_good m i k Hm Hp) as [dims [[H2 Hlt] [Hg [_ [Hi [_ K]]]]]]. unfold fim_compute, ensure_setup. cbn [io_s io_list io_E sv_setup].
    destruct K as [-> | ->]; cbn [bind]; [discriminate|]. unfold goal_of. cbn [sv_goal bind sv_init].
    apply bind_no_ub; [exact (safe_no_ub _ _ (s_fim_run L dims H2 Hlt f E _ i _ Hg Hi))|]. intros [[a b] c] _. discriminate.
Qed.

Theorem C83_fsm_faultless : forall maxSweeps, faultless (N := N) (fsm_api maxSweeps) good_map.
Proof.
  intros ms. apply (faultless_scheme (fsm_api ms) good_map (fsm_idle ms)).
  - intros m Hm. do 2 eexists. split; [reflexivity|]. do 2 eexists. split; [|split; reflexivity]. split; reflexivity.
  - intros o m g i k f o1 g1 Hm. apply fsm_query. apply good_flag, Hm.
  - intros o m g m' _ _ [s [incs [Hs [-> ->]]]]. do 2 eexists. split; [reflexivity|]. do 2 eexists. split; [|split; reflexivity]. split; [reflexivity|apply Hs].
  - intros o m g i k f Hm [s [incs [Hs [-> ->]]]] Hp. cbn. unfold fsm_setPoints. cbn [so_s so_sweeps so_max so_incs so_dims]. rewrite (resting_pts s i k Hs).
    destruct (setup_good m i k Hm Hp) as [dims [[H2 Hlt] [Hg [Hg0 [Hi [_ K]]]]]]. unfold fsm_compute, sweep_compute, fsm_setup. cbn [so_s so_sweeps so_max so_incs so_dims sv_setup].
    destruct K as [-> | ->]; cbn [bind]; [discriminate|]. cbn [so_s so_sweeps so_max so_incs so_dims]. unfold goal_of. cbn [sv_goal bind sv_init].
    apply bind_no_ub; [|intros [[a b] c] _; discriminate].
    refine (safe_no_ub _ _ (s_fsm_run L dims H2 Hlt f _ _ i _ _ _ Hg Hi _)).
    destruct Hg0 as [G _]. rewrite G. unfold mk_shape. destruct (partials 1 dims) as [pd pn]. apply C30_initial_directions.
Qed.

Theorem C83_lsm_faultless : forall maxSweeps, faultless (N := N) (lsm_api maxSweeps) good_map.
Proof.
  intros ms. apply (faultless_scheme (lsm_api ms) good_map (lsm_idle ms)).
  - intros m Hm. do 2 eexists. split; [reflexivity|]. do 2 eexists. split; [|split; [reflexivity|left; reflexivity]]. split; reflexivity.
  - intros o m g i k f o1 g1 Hm. apply lsm_query. apply good_fits, Hm.
  - intros o m g m' _ _ [s [incs [Hs [-> _]]]]. do 2 eexists. split; [reflexivity|]. do 2 eexists. split; [|split; [reflexivity|left; reflexivity]]. split; [reflexivity|apply Hs].
  - intros o m g i k f Hm [s [incs [Hs [-> Hgg]]]] Hp. cbn. unfold fsm_setPoints. cbn [so_s so_sweeps so_max so_incs so_dims]. rewrite (resting_pts s i k Hs).
    destruct (setup_good m i k Hm Hp) as [dims [[H2 Hlt] [Hg [Hg0 [Hi [_ K]]]]]].
    assert (E : lsm_compute f (mkFsm (mkSolver GSet false i (Some (u32 k))) 0 (u32 ms) incs (s_dims (g_sh (clean m)))) g =
                lsm_compute f (mkFsm (mkSolver GSet false i (Some (u32 k))) 0 (u32 ms) incs (s_dims (g_sh (clean m)))) (clean m)).
    { destruct Hgg as [-> | ->]; [reflexivity|]. apply (lsm_compute_frozen dims); [apply dims2_proper'; exact H2|lia|exact Hg0|reflexivity]. }
    rewrite E. clear E Hgg. unfold lsm_compute, sweep_compute, fsm_setup. cbn [so_s so_sweeps so_max so_incs so_dims sv_setup].
    destruct K as [-> | ->]; cbn [bind]; [discriminate|]. cbn [so_s so_sweeps so_max so_incs so_dims]. unfold goal_of. cbn [sv_goal bind sv_init].
    apply bind_no_ub; [|intros [[a b] c] _; discriminate].
    refine (safe_no_ub _ _ (s_lsm_run L dims H2 Hlt f _ _ i _ _ _ Hg Hi _)).
    destruct Hg0 as [G _]. rewrite G. unfold mk_shape. destruct (partials 1 dims) as [pd pn]. apply C30_initial_directions.
Qed.

(** GMM, any step, also the default one with changing maps *)
Definition gmm_any (dt : N) (o : a_obj (gmm_api dt)) m g : Prop := exists s d, resting s /\ o = mkGmmObj s d [] /\ g = clean m.
Lemma gmm_query_any dt (o : a_obj (gmm_api dt)) m g i k f o1 g1 : flag_is_true m -> gmm_any dt o m g -> a_comp (gmm_api dt) f (a_pts (gmm_api dt) o i k) g = Ok (o1, g1) ->
  exists o2 g2, a_reset (gmm_api dt) o1 g1 = Ok (o2, g2) /\ gmm_any dt o2 m g2.
Proof.
  intros Hm [s [d [Hs [-> ->]]]] H. cbn in H. unfold gmm_setPoints in H. cbn in H. rewrite (resting_pts s i k Hs) in H.
  match type of H with gmm_compute f ?o0 _ = _ => destruct (gmm_reset_compute o0 o1 (clean m) g1 f (clean_flag m) (clean_default m Hm) eq_refl eq_refl H) as [o2 [Er _]] end.
  exists o2, (clean m). split; [exact Er|].
  unfold gmm_compute, gmm_setup in H. cbn [go_s go_dt go_gamma sv_setup] in H. apply bind_ok in H. destruct H as [[oa ga] [Ha H]].
  apply bind_ok in Ha. destruct Ha as [[s1 gb] [H1 Ha]]. inversion Ha; subst oa ga. cbn [go_s go_dt go_gamma] in H.
  apply bind_ok in H. destruct H as [k2 [_ H]]. apply bind_ok in H. destruct H as [r [_ H]]. inversion H; subst o1 g1.
  pose proof (solver_setup_ok _ _ _ _ H1) as [Es1 _]. cbn in Er. unfold gmm_reset, solver_reset in Er. cbn [go_s go_dt] in Er. rewrite Es1 in Er. cbn [sv_grid bind] in Er. injection Er as Eo2 _. rewrite <- Eo2.
  do 2 eexists. split; [|split; reflexivity]. split; reflexivity.
Qed.

Theorem C83_gmm_faultless : forall (dt : N), faultless (gmm_api dt) good_map.
Proof.
  intros dt. apply (faultless_scheme (gmm_api dt) good_map (gmm_any dt)).
  - intros m Hm. do 2 eexists. split; [reflexivity|]. do 2 eexists. split; [|split; reflexivity]. split; reflexivity.
  - intros o m g i k f o1 g1 Hm. apply gmm_query_any. apply good_flag, Hm.
  - intros o m g m' _ _ [s [d [Hs [-> ->]]]]. do 2 eexists. split; [reflexivity|]. do 2 eexists. split; [|split; reflexivity]. split; [reflexivity|apply Hs].
  - intros o m g i k f Hm [s [d [Hs [-> ->]]]] Hp. cbn. unfold gmm_setPoints. cbn [go_s go_dt go_gamma]. rewrite (resting_pts s i k Hs).
    destruct (setup_good m i k Hm Hp) as [dims [[H2 Hlt] [Hg [_ [Hi [_ K]]]]]]. unfold gmm_compute, gmm_setup. cbn [go_s go_dt go_gamma sv_setup].
    destruct K as [-> | ->]; cbn [bind]; [discriminate|]. cbn [go_s go_dt go_gamma]. unfold goal_of. cbn [sv_goal bind sv_init].
    apply bind_no_ub; [exact (safe_no_ub _ _ (s_gmm_run L dims H2 Hlt f _ _ i _ Hg Hi))|]. intros r _. discriminate.
Qed.

(** DDQM: whatever threshold setEnvironment() and reset() choose *)
Definition ddqm_api : api N := mkApi N ddqm_obj ddqm_new ddqm_setEnvironment ddqm_setPoints ddqm_compute ddqm_reset.
Definition ddqm_idle (o : a_obj ddqm_api) m g : Prop := exists s a b, resting s /\ o = mkDdqm s (Some a) (Some b) [] [] /\ g = clean m.
Theorem C83_ddqm_faultless : faultless ddqm_api good_map.
Proof.
  apply (faultless_scheme ddqm_api good_map ddqm_idle).
  - intros m Hm. do 2 eexists. split; [reflexivity|]. do 3 eexists. split; [|split; reflexivity]. split; reflexivity.
  - intros o m g i k f o1 g1 Hm [s [a [b [Hs [-> ->]]]]] H. cbn in H. unfold ddqm_setPoints in H. cbn [do_s do_th do_step do_q0 do_q1] in H. rewrite (resting_pts s i k Hs) in H.
    unfold ddqm_compute, ensure_setup in H. cbn [do_s do_th do_step do_q0 do_q1 sv_setup] in H. apply bind_ok in H. destruct H as [[s1 gb] [H1 H]].
    pose proof (solver_setup_ok _ _ _ _ H1) as [Es1 [Egb _]]. subst s1 gb. unfold goal_of in H. cbn [sv_goal bind sv_init sv_grid] in H.
    apply bind_ok in H. destruct H as [[[r q0] q1] [Hr H]]. apply ddqm_resume_run in Hr. inversion H; subst o1 g1.
    pose proof (ddqm_run_frame (fun x => In x i) _ _ _ _ _ _ _ (fun x Hx => Hx) Hr) as HF.
    cbn. unfold ddqm_reset, solver_reset. cbn [do_s sv_grid bind]. do 2 eexists. split; [reflexivity|]. do 3 eexists. split; [|split; [reflexivity|exact (clean_after _ _ _ (clean_flag m) (clean_default m (good_flag m Hm)) HF)]].
    split; reflexivity.
  - intros o m g m' _ _ [s [a [b [Hs [-> ->]]]]]. do 2 eexists. split; [reflexivity|]. do 3 eexists. split; [|split; reflexivity]. split; [reflexivity|apply Hs].
  - intros o m g i k f Hm [s [a [b [Hs [-> ->]]]]] Hp. cbn. unfold ddqm_setPoints. cbn [do_s do_th do_step do_q0 do_q1]. rewrite (resting_pts s i k Hs).
    destruct (setup_good m i k Hm Hp) as [dims [[H2 Hlt] [Hg [_ [Hi [_ K]]]]]]. unfold ddqm_compute, ensure_setup. cbn [do_s do_th do_step do_q0 do_q1 sv_setup].
    destruct K as [-> | ->]; cbn [bind]; [discriminate|]. unfold goal_of. cbn [sv_goal bind sv_init].
    apply bind_no_ub; [|intros [[r q0] q1] _; discriminate].
    pose proof (safe_no_ub _ _ (s_ddqm_run L dims H2 Hlt f (u32 k) i a b _ Hg Hi)) as K. rewrite ddqm_resume_nil in K. intros E. rewrite E in K. apply K. reflexivity.
Qed.
End FInst.
Print Assumptions C83_fim_faultless. Print Assumptions C83_fsm_faultless. Print Assumptions C83_lsm_faultless.
Print Assumptions C83_gmm_faultless. Print Assumptions C83_ddqm_faultless.

(** FMM and SFMM in doubles, any heap that keeps its content *)
Lemma fmm_loop_ub {N : Num} (HO : HeapOps N) cfg goal : forall f1 f2 st log, (f1 <= f2)%nat -> fmm_loop HO f1 cfg goal st log = Fail UB -> fmm_loop HO f2 cfg goal st log = Fail UB.
Proof.
  induction f1 as [|f1 IH]; intros [|f2] st log Hle H; cbn [fmm_loop] in *; try discriminate; [lia|].
  destruct (fmm_step HO cfg st) as [[[m st']|]|e]; cbn [bind] in *; try congruence; try discriminate.
  destruct (m =? goal); [discriminate|]. apply IH; [lia|exact H].
Qed.
Lemma fmm_fuel_no_ub {N : Num} (HO : HeapOps N) cfg goal init (g : grid N) k st log :
  (forall fuel, (k <= fuel)%nat -> fmm_outcome HO cfg goal init g fuel st log) -> forall fuel, fmm_run HO fuel cfg goal init g (hempty HO) <> Fail UB.
Proof.
  intros H fuel E. pose proof (H (Nat.max k fuel) ltac:(lia)) as K. unfold fmm_outcome, fmm_run in *.
  destruct (foldM (fmm_init1 HO cfg) init (mkFst g (hempty HO))) as [s0|e]; cbn [bind] in *; [|congruence].
  rewrite (fmm_loop_ub HO cfg goal fuel (Nat.max k fuel) s0 [] ltac:(lia) E) in K. discriminate K.
Qed.

Theorem C83_fmm_faultless_doubles : forall (HO : HeapOps F64) (BL : BagLaws HO), faultless (fmm_api HO NOHEUR) good_map.
Proof.
  intros HO BL. apply (faultless_scheme (fmm_api HO NOHEUR) good_map (fmm_idle HO)).
  - intros m Hm. do 2 eexists. split; [reflexivity|]. eexists. split; [|split; reflexivity]. split; reflexivity.
  - intros o m g i k f o1 g1 Hm. apply fmm_query. apply good_flag, Hm.
  - intros o m g m' _ _ [s [Hs [-> ->]]]. do 2 eexists. split; [reflexivity|]. eexists. split; [|split; reflexivity]. split; [reflexivity|apply Hs].
  - intros o m g i k f Hm [s [Hs [-> ->]]] Hp. cbn. unfold fmm_setPoints, fmm_with_solver. cbn [fo_s fo_strat fo_dist fo_pre fo_coord fo_band]. rewrite (resting_pts s i k Hs).
    destruct (setup_good m i k Hm Hp) as [dims [Hsh [Hg [_ [Hi [_ K]]]]]]. unfold fmm_compute, fmm_setup. cbn [fo_s sv_setup].
    destruct K as [-> | ->]; cbn [bind]; [discriminate|]. unfold fmm_setHeuristics, fmm_with_solver. cbn [fo_s fo_strat fo_dist fo_pre fo_coord fo_band bind]. unfold goal_of. cbn [fo_s fo_strat fo_dist fo_pre fo_coord fo_band sv_goal bind sv_init].
    destruct (run_doubles dims Hsh HO BL (mkCfg NOHEUR [] []) i (setClean (clean m) false) (u32 k)) as [k0 [st [log [A _]]]]; [left; reflexivity| |exact Hi|].
    { split; [exact Hg|]. intros j c Hj. destruct (clean_default m (good_flag m Hm) j c Hj) as [A1 [A2 [A3 A4]]]. auto. }
    apply bind_no_ub; [exact (fmm_fuel_no_ub HO _ _ _ _ _ _ _ A f)|]. intros [a b] _. discriminate.
Qed.
Print Assumptions C83_fmm_faultless_doubles.

(** *** cases *)
Lemma vgrid_good {N : Num} dims (leaf : N) (vs : list N) : shape_ok dims -> Z.of_nat (length vs) = box_size dims -> good_map (vgrid dims leaf vs).
Proof.
  intros Hs Hl. destruct (vgrid_clean dims leaf vs Hl) as [Hg Hc]. split; [|exists dims; auto].
  intros _ i c Hi. destruct (Hc i c Hi) as [A [B C]]. repeat (split; [assumption|]). split; [|assumption].
  unfold getCell, vgrid, with_cells in Hi. cbn [g_cells] in Hi. apply vget_ok in Hi. destruct Hi as [_ Hi].
  apply nth_error_In in Hi. apply in_map_iff in Hi. destruct Hi as [[k v] [<- _]]. reflexivity.
Qed.

(** a corridor with an obstacle, then a smaller map with other velocities; five queries *)
Definition c83_a : grid F64 := vgrid [3;3] (n1 : F64) [z64 1; z64 1; half64; z64 1; z64 0; z64 1; z64 2; z64 1; z64 1].
Definition c83_b : grid F64 := vgrid [2;2] (half64 : F64) [z64 1; z64 3; z64 1; half64].
Definition c83_requests : list (request F64) :=
  [Query [0] 8 50; Query [8; 2] (-1) 50; NewMap c83_b; Query [3] 0 50; Query [0; 3] (-1) 50; NewMap c83_a; Query [6] (-1) 50].

Definition served {N : Num} (A : api N) m rs : res (a_obj A * grid N) := '(o0, g0) <- a_env A (a_new A) (Some m) ;; serve A o0 g0 rs.

Example C83_case :
  all_maps good_map c83_a c83_requests /\ points_fit c83_a c83_requests /\ all_goals any_goal c83_requests /\
  (exists r, served (fmm_api RefHeap NOHEUR) c83_a c83_requests = Ok r) /\ (exists r, served (fsm_api 4294967295) c83_a c83_requests = Ok r) /\
  (exists r, served (lsm_api 4294967295) c83_a c83_requests = Ok r) /\ (exists r, served (fim_api (comp_margin : F64)) c83_a c83_requests = Ok r) /\
  (exists r, served (gmm_api half64) c83_a c83_requests = Ok r) /\ (exists r, served (ufmm_api 1000 (half64 : F64)) c83_a c83_requests = Ok r).
Proof.
  assert (HA : good_map c83_a). { apply vgrid_good; [split; [repeat (constructor; [lia|]); constructor|cbn; lia]|reflexivity]. }
  assert (HB : good_map c83_b). { apply vgrid_good; [split; [repeat (constructor; [lia|]); constructor|cbn; lia]|reflexivity]. }
  assert (PA : forall i k, forallb (fun x => (0 <=? x) && (x <? 9)) i = true -> (k =? -1) || ((0 <=? k) && (k <? 9)) = true -> points_in c83_a i k).
  { intros i k Hi Hk dims [_ Hd]. rewrite <- Hd. cbn [c83_a]. split.
    - intros x Hx. rewrite forallb_forall in Hi. apply Hi in Hx. apply andb_true_iff in Hx. destruct Hx as [X Y]. apply Z.leb_le in X. apply Z.ltb_lt in Y. cbn; lia.
    - apply orb_true_iff in Hk. destruct Hk as [Hk|Hk]; [left; apply Z.eqb_eq; exact Hk|right]. apply andb_true_iff in Hk. destruct Hk as [X Y]. apply Z.leb_le in X. apply Z.ltb_lt in Y. cbn; lia. }
  assert (PB : forall i k, forallb (fun x => (0 <=? x) && (x <? 4)) i = true -> (k =? -1) || ((0 <=? k) && (k <? 4)) = true -> points_in c83_b i k).
  { intros i k Hi Hk dims [_ Hd]. rewrite <- Hd. cbn [c83_b]. split.
    - intros x Hx. rewrite forallb_forall in Hi. apply Hi in Hx. apply andb_true_iff in Hx. destruct Hx as [X Y]. apply Z.leb_le in X. apply Z.ltb_lt in Y. cbn; lia.
    - apply orb_true_iff in Hk. destruct Hk as [Hk|Hk]; [left; apply Z.eqb_eq; exact Hk|right]. apply andb_true_iff in Hk. destruct Hk as [X Y]. apply Z.leb_le in X. apply Z.ltb_lt in Y. cbn; lia. }
  split. { split; [exact HA|]. intros m' Hm. unfold c83_requests in Hm. cbn [In] in Hm.
    repeat match type of Hm with _ \/ _ => destruct Hm as [E|Hm]; [first [discriminate E | inversion E; subst m'; assumption]|] end. destruct Hm. }
  split. { cbn [points_fit c83_requests]. refine (conj (PA _ _ _ _) (conj (PA _ _ _ _) (conj (PB _ _ _ _) (conj (PB _ _ _ _) (conj (PA _ _ _ _) Logic.I))))); reflexivity. }
  split. { intros i k f _. exact Logic.I. }
  assert (K : forall A : api F64, match served A c83_a c83_requests with Ok _ => true | _ => false end = true -> exists r, served A c83_a c83_requests = Ok r).
  { intros A K. destruct (served A c83_a c83_requests) as [r|]; [exists r; reflexivity|discriminate K]. }
  repeat split; apply K; vm_compute; reflexivity.
Qed.

(** C82: leftovers of an interrupted run, a negative time, a NaN velocity *)
Definition c82_dirty : grid F64 :=
  let g := vgrid [3;2] (n1 : F64) [z64 1; ndiv (z64 0) (z64 0); z64 (-1); z64 1; z64 0; z64 1] in
  match (g1 <- setArrivalTime g 3 (z64 (-7)) ;; g2 <- setState g1 2 FROZEN ;; setState g2 5 NARROW) with Ok g3 => g3 | Fail _ => g end.
Example C82_case : shape_ok [3;2] /\ grid_ok [3;2] c82_dirty /\ (forall i, In i [0; 0; 4; 5] -> 0 <= i < box_size [3;2]) /\
  (exists t, getArrivalTime c82_dirty 3 = Ok t /\ nltb t (n0 : F64) = true) /\ (exists r, ddqm_run 200 4294967295 [0;0;4;5] half64 half64 c82_dirty = Ok r).
Proof.
  split; [split; [repeat (constructor; [lia|]); constructor|cbn; lia]|]. split; [split; vm_compute; reflexivity|].
  split. { intros i Hi. cbn. repeat (destruct Hi as [<-|Hi]; [lia|]). destruct Hi. }
  split.
  - assert (K : match getArrivalTime c82_dirty 3 with Ok t => nltb t (n0 : F64) | _ => false end = true) by (vm_compute; reflexivity).
    destruct (getArrivalTime c82_dirty 3) as [t|]; [|discriminate K]. exists t. split; [reflexivity|exact K].
  - assert (K : match ddqm_run 200 4294967295 [0;0;4;5] half64 half64 c82_dirty with Ok _ => true | _ => false end = true) by (vm_compute; reflexivity).
    destruct (ddqm_run 200 4294967295 [0;0;4;5] half64 half64 c82_dirty) as [r|]; [exists r; reflexivity|discriminate K].
Qed.

Print Assumptions C83_fmm. Print Assumptions C83_fim. Print Assumptions C83_ufmm. Print Assumptions C83_fsm. Print Assumptions C83_lsm.
Print Assumptions C83_gmm_given_step. Print Assumptions C83_gmm_default_step. Print Assumptions C83_fmmstar.

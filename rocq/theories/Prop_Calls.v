(** Prop_Calls.v - property theorems C87: FSM, LSM, DDQM, FIM and GMM objects survive every
    sequence of calls (setEnvironment, setInitialAndGoalPoints, compute, reset, clear), in any
    order, with leftovers of earlier runs, as long as the points are cells of the map and no map
    has fewer cells than an earlier one. *)
From Verif Require Import Base BaseFacts Num NumXR NumF64 NumLaws Grid GridFacts GridUpd Spec Obs Examples Eikonal FMMModel
  SweepModel QueueModel UntidyModel SweepOrder Frame SolverModel Lifecycle FMMStruct GridMore Safe Prop_Solver Prop_Sweep Prop_Heap Prop_History.
Open Scope Z_scope.

(** ** runs that start from the lists an earlier run left *)
Section Resume.
Context {N : Num}.
Variable L : NumLaws N.
Variable dims : list Z.
Hypothesis Hd2 : dims2 dims.
Hypothesis Hlt : 2 * box_size dims <= 4294967296.
Notation GO := (grid_ok dims).
Notation ing := (ing dims).
Notation allin l := (forall i, In i l -> ing i).

Lemma s_ddqm_loop_lq goal fuel (s : dq_state (N := N)) b : DQok dims s -> safe (ddqm_loop_lq fuel goal s b) (fun p => DQok dims (fst p)).
Proof.
  intros Hs. pose proof (s_ddqm_loop L dims Hd2 Hlt goal fuel s Hs) as K. rewrite (ddqm_lq_same goal fuel s b) in K.
  destruct (ddqm_loop_lq fuel goal s b) as [p|[| |]]; exact K.
Qed.

Lemma s_ddqm_resume fuel goal init th step q0 q1 (g : grid N) : GO g -> allin init -> allin q0 -> allin q1 ->
  safe (ddqm_resume fuel goal init th step q0 q1 g) (fun p => GO (dq_g (fst (fst p))) /\ allin (snd (fst p)) /\ allin (snd p)).
Proof.
  intros Hg Hr H0 H1. unfold ddqm_resume. apply (safe_bind _ _ _ _ (s_freeze dims Hd2 Hlt g Hg)). intros g0 Hg0.
  apply (safe_bind _ _ (fun p => GO (fst p) /\ forall i, In i (snd p) -> ing i)).
  - apply (safe_fold _ _ ing); [exact Hr| |split; [exact Hg0|exact H0]]. intros [g1 q] i Hi [A B]. cbn [fst snd] in *. unfold ddqm_init1.
    apply (safe_bind _ _ _ _ (s_setv dims _ _ n0 A Hi)). intros g2 Hg2. apply (safe_bind _ _ _ _ (s_nbr dims Hd2 Hlt _ _ Hg2 Hi)). intros ns Hns.
    apply (safe_fold _ (fun p => GO (fst p) /\ forall i, In i (snd p) -> ing i) ing); [exact Hns| |split; [exact Hg2|exact B]].
    intros [g3 q3] j Hj [A3 B3]. cbn [fst snd] in *. apply (safe_bind _ _ _ _ (s_get dims _ _ A3 Hj)). intros c _. destruct (isOccupied c); [split; auto|].
    apply (safe_bind _ _ _ _ (s_sets dims _ _ OPEN A3 Hj)). intros g4 Hg4. split; [exact Hg4|]. cbn [snd]. apply ing_app; auto.
  - intros [g1 q] [A B]. cbn [fst snd] in *.
    assert (K : safe ('(s, lq) <- ddqm_loop_lq fuel goal (mkDq g1 q q1 th step 0 0 false) false ;; Ok (s, if lq then dq_hi s else dq_lo s, if lq then dq_lo s else dq_hi s))
      (fun p => GO (dq_g (fst (fst p))) /\ allin (snd (fst p)) /\ allin (snd p))).
    { apply (safe_bind _ _ _ _ (s_ddqm_loop_lq goal fuel (mkDq g1 q q1 th step 0 0 false) false (conj A (conj B H1)))). intros [s lq] [C [D F]]. cbn [fst snd safe] in *.
      split; [exact C|]. destruct lq; split; assumption. }
    destruct q as [|x q]; [|exact K]. destruct q1 as [|y q1]; [|exact K]. split; [exact A|]. split; intros i [].
Qed.

Lemma s_fim_resume fuel E goal init l0 (g : grid N) : GO g -> allin init -> allin l0 ->
  safe (fim_resume fuel E goal init l0 g) (fun r => GO (fst (fst r)) /\ forall i, In i (snd (fst r)) -> ing i).
Proof.
  intros Hg Hr H0. unfold fim_resume. apply (safe_bind _ _ (fun s => GO (fi_g s) /\ forall i, In i (fi_l s) -> ing i)).
  - apply (safe_fold _ _ ing); [exact Hr| |split; [exact Hg|exact H0]]. intros s i Hi [A B]. unfold fim_init1.
    apply (safe_bind _ _ _ _ (s_setv dims _ _ n0 A Hi)). intros g1 Hg1. apply (safe_bind _ _ _ _ (s_sets dims _ _ FROZEN Hg1 Hi)). intros g2 Hg2.
    apply (safe_bind _ _ _ _ (s_nbr dims Hd2 Hlt _ _ Hg2 Hi)). intros ns Hns.
    apply (safe_fold _ (fun s => GO (fi_g s) /\ forall i, In i (fi_l s) -> ing i) ing); [exact Hns| |split; [exact Hg2|exact B]].
    intros s3 j Hj [A3 B3]. apply (safe_bind _ _ _ _ (s_get dims _ _ A3 Hj)). intros c _. destruct (_ && _); [|split; auto].
    apply (safe_bind _ _ _ _ (s_sets dims _ _ NARROW A3 Hj)). intros g4 Hg4. split; [exact Hg4|]. cbn [fi_l]. apply ing_app; auto.
  - intros s [A B]. apply (s_fim_loop L dims Hd2 Hlt); auto.
Qed.

Lemma s_gmm_resume fuel dt goal init l0 (g : grid N) : GO g -> allin init -> allin l0 -> safe (gmm_resume fuel dt goal init l0 g) (GMok dims).
Proof.
  intros Hg Hr H0. unfold gmm_resume. apply (safe_bind _ _ (GMok dims)).
  - apply (safe_fold _ (GMok dims) ing); [exact Hr| |split; [exact Hg|exact H0]]. intros s i Hi [A B]. unfold gmm_init1.
    apply (safe_bind _ _ _ _ (s_setv dims _ _ n0 A Hi)). intros g1 Hg1. apply (safe_bind _ _ _ _ (s_sets dims _ _ FROZEN Hg1 Hi)). intros g2 Hg2.
    apply (safe_bind _ _ _ _ (s_nbr dims Hd2 Hlt _ _ Hg2 Hi)). intros ns Hns.
    apply (safe_fold _ (GMok dims) ing); [exact Hns| |split; [exact Hg2|exact B]].
    intros s3 j Hj [A3 B3]. apply (safe_bind _ _ _ _ (s_get dims _ _ A3 Hj)). intros c _. destruct (_ || _); [split; auto|].
    apply (safe_bind _ _ _ _ (s_eik L dims Hd2 Hlt _ _ A3 Hj)). intros t _. apply (safe_bind _ _ _ _ (s_setv dims _ _ t A3 Hj)). intros ga Hga.
    apply (safe_bind _ _ _ _ (s_sets dims _ _ NARROW Hga Hj)). intros g4 Hg4. split; [exact Hg4|]. cbn [gm_l]. apply ing_app; auto.
  - intros s HS. apply (s_gmm_loop L dims Hd2 Hlt); exact HS.
Qed.

Lemma loop_dir (solve : sw_state (N := N) -> Z -> res sw_state) n maxS : forall fuel sweeps incs s s' sw' incs', is_dir n incs ->
  sweep_loop solve fuel maxS sweeps incs s = Ok (s', sw', incs') -> is_dir n incs'.
Proof.
  induction fuel as [|k IH]; intros sweeps incs s s' sw' incs' Hd; cbn [sweep_loop]; destruct (_ && _ && _); try (intros H; inversion H; subst; exact Hd).
  intros H. apply bind_ok in H. destruct H as [s1 [_ H]]. eapply IH; [|exact H]. exact (proj1 (next_dir _ _ Hd)).
Qed.
Lemma s_fsm_run_dir fuel maxS goal init sweeps incs (g : grid N) : GO g -> allin init -> is_dir (length dims) incs ->
  safe (fsm_run fuel maxS goal init sweeps incs g) (fun r => GO (sw_g (fst (fst r))) /\ is_dir (length dims) (snd r)).
Proof.
  intros Hg Hr Hd. pose proof (s_fsm_run L dims Hd2 Hlt fuel maxS goal init sweeps incs g Hg Hr Hd) as K.
  destruct (fsm_run fuel maxS goal init sweeps incs g) as [[[s n] i']|[| |]] eqn:E; cbn [safe] in *; auto. split; [exact K|].
  unfold fsm_run in E. apply bind_ok in E. destruct E as [g0 [_ E]]. exact (loop_dir _ _ _ _ _ _ _ _ _ _ Hd E).
Qed.
Lemma s_lsm_run_dir fuel maxS goal init sweeps incs (g : grid N) : GO g -> allin init -> is_dir (length dims) incs ->
  safe (lsm_run fuel maxS goal init sweeps incs g) (fun r => GO (sw_g (fst (fst r))) /\ is_dir (length dims) (snd r)).
Proof.
  intros Hg Hr Hd. pose proof (s_lsm_run L dims Hd2 Hlt fuel maxS goal init sweeps incs g Hg Hr Hd) as K.
  destruct (lsm_run fuel maxS goal init sweeps incs g) as [[[s n] i']|[| |]] eqn:E; cbn [safe] in *; auto. split; [exact K|].
  unfold lsm_run in E. apply bind_ok in E. destruct E as [g0 [_ E]]. apply bind_ok in E. destruct E as [g1 [_ E]]. exact (loop_dir _ _ _ _ _ _ _ _ _ _ Hd E).
Qed.
End Resume.

(** ** C87 *)
(** the calls an application makes on a solver *)
Inductive call (N : Num) := SetEnvironment (m : grid N) | SetPoints (init : list Z) (goal : Z) | Compute (fuel : nat) | Reset | Clear.
Arguments SetEnvironment {N}. Arguments SetPoints {N}. Arguments Compute {N}. Arguments Reset {N}. Arguments Clear {N}.

Section C87.
Context {N : Num}.
Implicit Types (A : api N) (g m : grid N).

Definition exec A (clr : a_obj A -> a_obj A) (o : a_obj A) g (c : call N) : res (a_obj A * grid N) :=
  match c with
  | SetEnvironment m => a_env A o (Some m)
  | SetPoints init goal => Ok (a_pts A o init goal, g)
  | Compute fuel => a_comp A fuel o g
  | Reset => a_reset A o g
  | Clear => Ok (clr o, g)
  end.
Fixpoint perform A (clr : a_obj A -> a_obj A) (o : a_obj A) g (cs : list (call N)) : res (a_obj A * grid N) :=
  match cs with [] => Ok (o, g) | c :: r => '(o1, g1) <- exec A clr o g c ;; perform A clr o1 g1 r end.

(** the points given are cells of the map in use (the goal may be -1), and a new map has the
    same number of dimensions, and not fewer cells, than the map in use; its content is arbitrary *)
Definition good_points (dims : list Z) (init : list Z) (goal : Z) : Prop :=
  (forall i, In i init -> 0 <= i < box_size dims) /\ (goal = -1 \/ 0 <= goal < box_size dims).
Fixpoint calls_ok (dims : list Z) (cs : list (call N)) : Prop :=
  match cs with
  | [] => True
  | SetEnvironment m :: r => exists dims', shape_ok dims' /\ grid_ok dims' m /\ length dims' = length dims /\ box_size dims <= box_size dims' /\ calls_ok dims' r
  | SetPoints init goal :: r => good_points dims init goal /\ calls_ok dims r
  | _ :: r => calls_ok dims r
  end.

(** Whatever is called, in whatever order, after a first map and first points: no undefined
    behaviour.  (The program may still exit with an error message, or a compute still run.) *)
Definition survives A (clr : a_obj A -> a_obj A) : Prop :=
  forall dims m init goal cs, shape_ok dims -> grid_ok dims m -> good_points dims init goal -> calls_ok dims cs ->
  perform A clr (a_new A) m (SetEnvironment m :: SetPoints init goal :: cs) <> Fail UB.

Definition calm {B} (r : res B) (P : B -> Prop) : Prop := match r with Ok a => P a | Fail UB => False | Fail _ => True end.
Lemma calm_bind {B C} (x : res B) (k : B -> res C) P Q : calm x P -> (forall a, P a -> calm (k a) Q) -> calm (bind x k) Q.
Proof. destruct x as [a|[| |]]; cbn; auto. Qed.
Lemma calm_safe {B} (x : res B) P : safe x P -> calm x P.
Proof. destruct x as [a|[| |]]; cbn; auto. Qed.

Section Scheme.
Variable A : api N.
Variable clr : a_obj A -> a_obj A.
(** solver part of the object, and what else must hold of it *)
Variable sol : a_obj A -> solver.
Variable more : list Z -> a_obj A -> Prop.
Definition ready (dims : list Z) (s : solver) : Prop :=
  sv_grid s = GSet /\ exists init goal, sv_init s = init /\ sv_goal s = Some (u32 goal) /\ good_points dims init goal.
Definition inv dims (o : a_obj A) g : Prop := shape_ok dims /\ grid_ok dims g /\ ready dims (sol o) /\ more dims o.

Hypothesis h_start : forall dims m init goal, shape_ok dims -> grid_ok dims m -> good_points dims init goal ->
  exists o g, a_env A (a_new A) (Some m) = Ok (o, g) /\ inv dims (a_pts A o init goal) g.
Hypothesis h_env : forall dims dims' o g m, inv dims o g -> shape_ok dims' -> grid_ok dims' m -> length dims' = length dims -> box_size dims <= box_size dims' ->
  exists o1 g1, a_env A o (Some m) = Ok (o1, g1) /\ inv dims' o1 g1.
Hypothesis h_pts : forall dims o g init goal, inv dims o g -> good_points dims init goal -> inv dims (a_pts A o init goal) g.
Hypothesis h_comp : forall dims o g fuel, inv dims o g -> calm (a_comp A fuel o g) (fun p => inv dims (fst p) (snd p)).
Hypothesis h_reset : forall dims o g, inv dims o g -> calm (a_reset A o g) (fun p => inv dims (fst p) (snd p)).
Hypothesis h_clear : forall dims o g, inv dims o g -> inv dims (clr o) g.

Lemma survives_scheme : survives A clr.
Proof.
  assert (K : forall cs dims o g, inv dims o g -> calls_ok dims cs -> perform A clr o g cs <> Fail UB).
  { induction cs as [|c r IH]; intros dims o g HI Hok; cbn [perform]; [discriminate|].
    destruct c as [m|init goal|fuel| |]; cbn [exec calls_ok] in *.
    - destruct Hok as [dims' [H1 [H2 [H3 [H4 H5]]]]]. destruct (h_env dims dims' o g m HI H1 H2 H3 H4) as [o1 [g1 [-> HI1]]]. cbn [bind]. exact (IH dims' o1 g1 HI1 H5).
    - cbn [bind]. apply (IH dims); [apply h_pts; [exact HI|apply Hok]|apply Hok].
    - pose proof (h_comp dims o g fuel HI) as K. destruct (a_comp A fuel o g) as [[o1 g1]|[| |]]; cbn [calm bind fst snd] in *; try discriminate; [exact (IH dims o1 g1 K Hok)|contradiction].
    - pose proof (h_reset dims o g HI) as K. destruct (a_reset A o g) as [[o1 g1]|[| |]]; cbn [calm bind fst snd] in *; try discriminate; [exact (IH dims o1 g1 K Hok)|contradiction].
    - cbn [bind]. apply (IH dims); [apply h_clear; exact HI|exact Hok]. }
  intros dims m init goal cs Hs Hg Hp Hok. cbn [perform exec]. destruct (h_start dims m init goal Hs Hg Hp) as [o [g [-> HI]]]. cbn [bind]. exact (K cs dims _ g HI Hok).
Qed.
End Scheme.

Lemma points_grow dims dims' init goal : box_size dims <= box_size dims' -> good_points dims init goal -> good_points dims' init goal.
Proof. intros H [A B]. split; [intros i Hi; specialize (A i Hi); lia|]. destruct B; [left; assumption|right; lia]. Qed.

(** what compute starts with *)
Lemma ready_setup dims s g : shape_ok dims -> grid_ok dims g -> ready dims s -> calm (solver_setup s g) (fun p => p = (mkSolver GSet true (sv_init s) (sv_goal s), setClean g false)).
Proof.
  intros Hs Hg [Hgr [init [goal [Ei [Ek [Hi Hk]]]]]]. pose proof (setup_total dims g init goal Hs Hg Hi Hk) as K.
  assert (E : solver_setup s g = solver_setup (mkSolver GSet false init (Some (u32 goal))) g).
  { unfold solver_setup, sanityChecks, goal_of. cbn [sv_grid sv_init sv_goal]. rewrite Hgr, Ei, Ek. reflexivity. }
  rewrite E, Ei, Ek. destruct K as [-> | ->]; cbn [calm]; auto.
Qed.
Lemma ready_ensure dims s g : shape_ok dims -> grid_ok dims g -> ready dims s ->
  calm (ensure_setup s g) (fun p => ready dims (fst p) /\ sv_setup (fst p) = true /\ sv_init (fst p) = sv_init s /\ grid_ok dims (snd p)).
Proof.
  intros Hs Hg Hr. unfold ensure_setup. destruct (sv_setup s) eqn:Eu; [cbn [calm fst snd]; auto|].
  pose proof (ready_setup dims s g Hs Hg Hr) as K. destruct (solver_setup s g) as [p|[| |]]; cbn [calm] in *; auto. subst p. cbn [fst snd sv_setup sv_init].
  split; [|split; [reflexivity|split; [reflexivity|apply setClean_grid_ok, Hg]]]. destruct Hr as [_ [i [k [A [B C]]]]]. split; [reflexivity|]. exists i, k. auto.
Qed.
Lemma ready_clear dims s : ready dims s -> ready dims (solver_clear s).
Proof. intros [A _]. split; [exact A|]. exists [], (-1). split; [reflexivity|]. split; [reflexivity|]. split; [intros i []|left; reflexivity]. Qed.
Lemma ready_pts dims s init goal : ready dims s -> good_points dims init goal -> ready dims (setInitialAndGoalPoints s init goal).
Proof. intros [A _] H. split; [exact A|]. exists init, goal. auto. Qed.
Lemma ready_env dims dims' s : box_size dims <= box_size dims' -> ready dims s -> ready dims' (mkSolver GSet (sv_setup s) (sv_init s) (sv_goal s)).
Proof. intros H [_ [i [k [A [B C]]]]]. split; [reflexivity|]. exists i, k. split; [exact A|]. split; [exact B|exact (points_grow _ _ _ _ H C)]. Qed.
Lemma ready_reset dims s g : ready dims s -> grid_ok dims g -> solver_reset s g = Ok (mkSolver GSet false (sv_init s) (sv_goal s), clean g) /\ ready dims (mkSolver GSet false (sv_init s) (sv_goal s)) /\ grid_ok dims (clean g).
Proof.
  intros [A [i [k [B [C D]]]]] Hg. unfold solver_reset. rewrite A. split; [reflexivity|]. split; [|apply clean_grid_ok, Hg]. split; [reflexivity|]. exists i, k. auto.
Qed.
Lemma ready_init dims s : ready dims s -> forall i, In i (sv_init s) -> ing dims i.
Proof. intros [_ [i [k [A [_ [D _]]]]]] x Hx. rewrite A in Hx. exact (D x Hx). Qed.
Lemma ready_goal dims s : ready dims s -> exists k, goal_of s = Ok k.
Proof. intros [_ [i [k [_ [B _]]]]]. exists (u32 k). unfold goal_of. rewrite B. reflexivity. Qed.
Lemma ready_new dims init goal : good_points dims init goal -> ready dims (mkSolver GSet false init (Some (u32 goal))).
Proof. intros H. split; [reflexivity|]. exists init, goal. auto. Qed.
Lemma ing_grow dims dims' l : box_size dims <= box_size dims' -> (forall i, In i l -> ing dims i) -> forall i, In i l -> ing dims' i.
Proof. intros H K i Hi. specialize (K i Hi). unfold ing in *. lia. Qed.

Section Inst.
Variable L : NumLaws N.

(** FIM *)
Definition fim_more dims (o : fim_obj (N := N)) : Prop := forall i, In i (io_list o) -> ing dims i.
Theorem C87_fim : forall E : N, survives (fim_api E) fim_clear.
Proof.
  intros E. apply (survives_scheme (fim_api E) fim_clear io_s fim_more).
  - intros dims m init goal Hs Hg Hp. do 2 eexists. split; [reflexivity|]. split; [exact Hs|]. split; [apply clean_grid_ok, Hg|]. split; [apply ready_new, Hp|intros i []].
  - intros dims dims' o g m [_ [_ [Hr Hl]]] Hs Hg _ Hb. do 2 eexists. split; [reflexivity|]. split; [exact Hs|]. split; [apply clean_grid_ok, Hg|]. split; [apply (ready_env dims); auto|].
    exact (ing_grow _ _ _ Hb Hl).
  - intros dims o g init goal [Hs [Hg [Hr Hl]]] Hp. split; [exact Hs|]. split; [exact Hg|]. split; [apply ready_pts; auto|exact Hl].
  - intros dims o g fuel [Hs [Hg [Hr Hl]]]. cbn [a_comp fim_api]. unfold fim_compute. apply (calm_bind _ _ _ _ (ready_ensure dims (io_s o) g Hs Hg Hr)).
    intros [s1 g1] [R1 [_ [Ei G1]]]. cbn [fst snd] in *. destruct (ready_goal _ _ R1) as [k ->]. cbn [bind]. pose proof Hs as [H2 Hlt].
    apply (calm_bind _ _ _ _ (calm_safe _ _ (s_fim_resume L dims H2 Hlt fuel (io_E o) k (sv_init s1) (io_list o) g1 G1 (ready_init _ _ R1) Hl))).
    intros [[g2 l] ub] [G2 Hl2]. cbn [fst snd calm] in *. split; [exact Hs|]. split; [exact G2|]. split; [exact R1|exact Hl2].
  - intros dims o g [Hs [Hg [Hr Hl]]]. cbn [a_reset fim_api]. unfold fim_reset. destruct (ready_reset dims _ g Hr Hg) as [-> [R1 G1]]. cbn [bind calm fst snd].
    split; [exact Hs|]. split; [exact G1|]. split; [exact R1|intros i []].
  - intros dims o g [Hs [Hg [Hr Hl]]]. split; [exact Hs|]. split; [exact Hg|]. split; [exact Hr|intros i []].
Qed.

(** GMM *)
Definition gmm_more dims (o : gmm_obj (N := N)) : Prop := forall i, In i (go_gamma o) -> ing dims i.
Theorem C87_gmm : forall dt : N, survives (gmm_api dt) gmm_clear.
Proof.
  intros dt. apply (survives_scheme (gmm_api dt) gmm_clear go_s gmm_more).
  - intros dims m init goal Hs Hg Hp. do 2 eexists. split; [reflexivity|]. split; [exact Hs|]. split; [apply clean_grid_ok, Hg|]. split; [apply ready_new, Hp|intros i []].
  - intros dims dims' o g m [_ [_ [Hr Hl]]] Hs Hg _ Hb. do 2 eexists. split; [reflexivity|]. split; [exact Hs|]. split; [apply clean_grid_ok, Hg|]. split; [apply (ready_env dims); auto|].
    exact (ing_grow _ _ _ Hb Hl).
  - intros dims o g init goal [Hs [Hg [Hr Hl]]] Hp. split; [exact Hs|]. split; [exact Hg|]. split; [apply ready_pts; auto|exact Hl].
  - intros dims o g fuel [Hs [Hg [Hr Hl]]]. cbn [a_comp gmm_api]. unfold gmm_compute.
    apply (calm_bind _ _ (fun p => ready dims (go_s (fst p)) /\ gmm_more dims (fst p) /\ grid_ok dims (snd p))).
    + pose proof (ready_ensure dims (go_s o) g Hs Hg Hr) as K. unfold ensure_setup in K. destruct (sv_setup (go_s o)); [cbn [calm fst snd]; auto|]. unfold gmm_setup.
      apply (calm_bind _ _ _ _ K). intros [s1 g1] [R1 [_ [_ G1]]]. cbn [calm fst snd] in *. split; [exact R1|]. split; [exact Hl|exact G1].
    + intros [o1 g1] [R1 [Hl1 G1]]. cbn [fst snd] in *. destruct (ready_goal _ _ R1) as [k ->]. cbn [bind]. pose proof Hs as [H2 Hlt].
      apply (calm_bind _ _ _ _ (calm_safe _ _ (s_gmm_resume L dims H2 Hlt fuel (go_dt o1) k (sv_init (go_s o1)) (go_gamma o1) g1 G1 (ready_init _ _ R1) Hl1))).
      intros r [G2 Hl2]. cbn [fst snd calm]. split; [exact Hs|]. split; [exact G2|]. split; [exact R1|exact Hl2].
  - intros dims o g [Hs [Hg [Hr Hl]]]. cbn [a_reset gmm_api]. unfold gmm_reset. destruct (ready_reset dims _ g Hr Hg) as [-> [R1 G1]]. cbn [bind calm fst snd].
    split; [exact Hs|]. split; [exact G1|]. split; [exact R1|intros i []].
  - intros dims o g [Hs [Hg [Hr Hl]]]. split; [exact Hs|]. split; [exact Hg|]. split; [exact Hr|intros i []].
Qed.

(** DDQM *)
Definition ddqm_more dims (o : ddqm_obj (N := N)) : Prop :=
  (exists th step, do_th o = Some th /\ do_step o = Some step) /\ (forall i, In i (do_q0 o) -> ing dims i) /\ (forall i, In i (do_q1 o) -> ing dims i).
Theorem C87_ddqm : survives ddqm_api ddqm_clear.
Proof.
  apply (survives_scheme ddqm_api ddqm_clear do_s ddqm_more).
  - intros dims m init goal Hs Hg Hp. do 2 eexists. split; [reflexivity|]. split; [exact Hs|]. split; [apply clean_grid_ok, Hg|]. split; [apply ready_new, Hp|].
    split; [do 2 eexists; split; reflexivity|split; intros i []].
  - intros dims dims' o g m [_ [_ [Hr [_ [H0 H1]]]]] Hs Hg _ Hb. do 2 eexists. split; [reflexivity|]. split; [exact Hs|]. split; [apply clean_grid_ok, Hg|]. split; [apply (ready_env dims); auto|].
    split; [do 2 eexists; split; reflexivity|]. split; [exact (ing_grow _ _ _ Hb H0)|exact (ing_grow _ _ _ Hb H1)].
  - intros dims o g init goal [Hs [Hg [Hr Hl]]] Hp. split; [exact Hs|]. split; [exact Hg|]. split; [apply ready_pts; auto|exact Hl].
  - intros dims o g fuel [Hs [Hg [Hr [[th [step [Eth Est]]] [H0 H1]]]]]. cbn [a_comp ddqm_api]. unfold ddqm_compute. apply (calm_bind _ _ _ _ (ready_ensure dims (do_s o) g Hs Hg Hr)).
    intros [s1 g1] [R1 [_ [Ei G1]]]. cbn [fst snd] in *. destruct (ready_goal _ _ R1) as [k ->]. cbn [bind]. rewrite Eth, Est. pose proof Hs as [H2 Hlt].
    apply (calm_bind _ _ _ _ (calm_safe _ _ (s_ddqm_resume L dims H2 Hlt fuel k (sv_init s1) th step (do_q0 o) (do_q1 o) g1 G1 (ready_init _ _ R1) H0 H1))).
    intros [[r q0] q1] [G2 [K0 K1]]. cbn [fst snd calm] in *. split; [exact Hs|]. split; [exact G2|]. split; [exact R1|].
    split; [do 2 eexists; split; reflexivity|split; assumption].
  - intros dims o g [Hs [Hg [Hr Hl]]]. cbn [a_reset ddqm_api]. unfold ddqm_reset. destruct (ready_reset dims _ g Hr Hg) as [-> [R1 G1]]. cbn [bind calm fst snd].
    split; [exact Hs|]. split; [exact G1|]. split; [exact R1|]. split; [do 2 eexists; split; reflexivity|split; intros i []].
  - intros dims o g [Hs [Hg [Hr Hl]]]. split; [exact Hs|]. split; [exact Hg|]. split; [apply ready_clear, Hr|exact Hl].
Qed.

(** FSM and LSM *)
Definition sweep_more dims (o : fsm_obj) : Prop := so_dims o = dims /\ (sv_setup (so_s o) = true -> is_dir (length dims) (so_incs o)).
Lemma dims_of dims m : grid_ok dims m -> s_dims (g_sh (clean m)) = dims.
Proof. intros Hg. destruct (clean_grid_ok dims m Hg) as [-> _]. unfold mk_shape. destruct (partials 1 dims). reflexivity. Qed.

Lemma sweep_calm run dims (o : fsm_obj) g fuel :
  (forall dims, shape_ok dims -> forall fuel ms k init sw incs (g : grid N), grid_ok dims g -> (forall i, In i init -> ing dims i) -> is_dir (length dims) incs ->
     safe (run fuel ms k init sw incs g) (fun r => grid_ok dims (sw_g (fst (fst r))) /\ is_dir (length dims) (snd r))) ->
  shape_ok dims -> grid_ok dims g -> ready dims (so_s o) -> sweep_more dims o ->
  calm (sweep_compute run fuel o g) (fun p => shape_ok dims /\ grid_ok dims (snd p) /\ ready dims (so_s (fst p)) /\ sweep_more dims (fst p)).
Proof.
  intros Hrun Hs Hg Hr [Ed Hd]. unfold sweep_compute.
  apply (calm_bind _ _ (fun p => ready dims (so_s (fst p)) /\ so_dims (fst p) = dims /\ is_dir (length dims) (so_incs (fst p)) /\ grid_ok dims (snd p))).
  - pose proof (ready_ensure dims (so_s o) g Hs Hg Hr) as K. unfold ensure_setup in K. destruct (sv_setup (so_s o)); [cbn [calm fst snd]; auto|]. unfold fsm_setup.
    apply (calm_bind _ _ _ _ K). intros [s1 g1] [R1 [_ [_ G1]]]. cbn [calm fst snd so_s so_dims so_incs] in *. split; [exact R1|]. split; [exact Ed|]. split; [rewrite Ed; apply C30_initial_directions|exact G1].
  - intros [o1 g1] [R1 [Ed1 [Hd1 G1]]]. cbn [fst snd] in *. destruct (ready_goal _ _ R1) as [k ->]. cbn [bind].
    apply (calm_bind _ _ _ _ (calm_safe _ _ (Hrun dims Hs fuel (so_max o1) k (sv_init (so_s o1)) (so_sweeps o1) (so_incs o1) g1 G1 (ready_init _ _ R1) Hd1))).
    intros [[st sw] incs] [G2 Hd2]. cbn [fst snd calm so_s so_dims so_incs] in *. split; [exact Hs|]. split; [exact G2|]. split; [exact R1|]. split; [exact Ed1|intros _; exact Hd2].
Qed.

Theorem C87_fsm : forall maxSweeps, survives (fsm_api (N := N) maxSweeps) fsm_clear.
Proof.
  intros ms. apply (survives_scheme (fsm_api ms) fsm_clear so_s sweep_more).
  - intros dims m init goal Hs Hg Hp. do 2 eexists. split; [reflexivity|]. split; [exact Hs|]. split; [apply clean_grid_ok, Hg|]. split; [apply ready_new, Hp|].
    split; [exact (dims_of dims m Hg)|discriminate].
  - intros dims dims' o g m [_ [_ [Hr [Ed Hd]]]] Hs Hg Hn Hb. do 2 eexists. split; [reflexivity|]. split; [exact Hs|]. split; [apply clean_grid_ok, Hg|]. split; [apply (ready_env dims); auto|].
    split; [exact (dims_of dims' m Hg)|]. cbn [so_s sv_setup so_incs]. rewrite Hn. exact Hd.
  - intros dims o g init goal [Hs [Hg [Hr Hl]]] Hp. split; [exact Hs|]. split; [exact Hg|]. split; [apply ready_pts; auto|exact Hl].
  - intros dims o g fuel [Hs [Hg [Hr Hl]]]. cbn [a_comp fsm_api]. apply (sweep_calm fsm_run dims); auto. intros ds [H2 Hlt]. intros. apply (s_fsm_run_dir L); auto.
  - intros dims o g [Hs [Hg [Hr Hl]]]. cbn [a_reset fsm_api]. unfold fsm_reset. destruct (ready_reset dims _ g Hr Hg) as [-> [R1 G1]]. cbn [bind calm fst snd].
    split; [exact Hs|]. split; [exact G1|]. split; [exact R1|]. split; [exact (proj1 Hl)|discriminate].
  - intros dims o g [Hs [Hg [Hr Hl]]]. split; [exact Hs|]. split; [exact Hg|]. split; [apply ready_clear, Hr|]. split; [exact (proj1 Hl)|discriminate].
Qed.
Theorem C87_lsm : forall maxSweeps, survives (lsm_api (N := N) maxSweeps) fsm_clear.
Proof.
  intros ms. apply (survives_scheme (lsm_api ms) fsm_clear so_s sweep_more).
  - intros dims m init goal Hs Hg Hp. do 2 eexists. split; [reflexivity|]. split; [exact Hs|]. split; [apply clean_grid_ok, Hg|]. split; [apply ready_new, Hp|].
    split; [exact (dims_of dims m Hg)|discriminate].
  - intros dims dims' o g m [_ [_ [Hr [Ed Hd]]]] Hs Hg Hn Hb. do 2 eexists. split; [reflexivity|]. split; [exact Hs|]. split; [apply clean_grid_ok, Hg|]. split; [apply (ready_env dims); auto|].
    split; [exact (dims_of dims' m Hg)|]. cbn [so_s sv_setup so_incs]. rewrite Hn. exact Hd.
  - intros dims o g init goal [Hs [Hg [Hr Hl]]] Hp. split; [exact Hs|]. split; [exact Hg|]. split; [apply ready_pts; auto|exact Hl].
  - intros dims o g fuel [Hs [Hg [Hr Hl]]]. cbn [a_comp lsm_api]. apply (sweep_calm lsm_run dims); auto. intros ds [H2 Hlt]. intros. apply (s_lsm_run_dir L); auto.
  - intros dims o g [Hs [Hg [Hr Hl]]]. cbn [a_reset lsm_api]. unfold lsm_reset, fsm_reset. destruct (ready_reset dims _ g Hr Hg) as [-> [R1 G1]]. cbn [bind]. pose proof Hs as [H2 Hlt].
    apply (calm_bind _ _ _ _ (calm_safe _ _ (s_freeze dims H2 Hlt _ G1))). intros g2 G2. cbn [calm fst snd].
    split; [exact Hs|]. split; [exact G2|]. split; [exact R1|]. split; [exact (proj1 Hl)|discriminate].
  - intros dims o g [Hs [Hg [Hr Hl]]]. split; [exact Hs|]. split; [exact Hg|]. split; [apply ready_clear, Hr|]. split; [exact (proj1 Hl)|discriminate].
Qed.
End Inst.
End C87.

(** *** cases *)
(** a 2x2 map with odd velocities, then the 3x3 map of C83 (never reset in between, computing
    twice, new points while lists are not empty, clear, compute without points) *)
Definition c87_calls : list (call F64) :=
  [Compute 200; Compute 200; SetEnvironment c83_a; Compute 200; SetPoints [8; 2] 6; Compute 200; SetPoints [0] (-1); Compute 200;
   SetEnvironment c83_a; SetPoints [0; 5] 8; Compute 200; Reset; Compute 200; Reset; Reset; SetPoints [3] (-1); Compute 200; Clear; Compute 200].
Definition c87_fine {N : Num} (A : api N) clr m (cs : list (call N)) : bool :=
  match perform A clr (a_new A) m (SetEnvironment m :: SetPoints [3] 0 :: cs) with Fail UB => false | _ => true end.

Example C87_case : shape_ok [2;2] /\ grid_ok [2;2] c83_b /\ good_points [2;2] [3] 0 /\ calls_ok [2;2] c87_calls /\
  c87_fine (fim_api (comp_margin : F64)) fim_clear c83_b c87_calls = true /\ c87_fine (gmm_api half64) gmm_clear c83_b c87_calls = true /\
  c87_fine ddqm_api ddqm_clear c83_b c87_calls = true /\ c87_fine (fsm_api 4294967295) fsm_clear c83_b c87_calls = true /\
  c87_fine (lsm_api 4294967295) fsm_clear c83_b c87_calls = true.
Proof.
  assert (SH : forall ds, ds = [2;2] \/ ds = [3;3] -> shape_ok ds). { intros ds [-> | ->]; (split; [repeat (constructor; [lia|]); constructor|cbn; lia]). }
  assert (GP : forall init goal, forallb (fun x => (0 <=? x) && (x <? 9)) init = true -> (goal =? -1) || ((0 <=? goal) && (goal <? 9)) = true -> good_points [3;3] init goal).
  { intros i k Hi Hk. split.
    - intros x Hx. rewrite forallb_forall in Hi. apply Hi in Hx. apply andb_true_iff in Hx. destruct Hx as [X Y]. apply Z.leb_le in X. apply Z.ltb_lt in Y. cbn; lia.
    - apply orb_true_iff in Hk. destruct Hk as [Hk|Hk]; [left; apply Z.eqb_eq; exact Hk|right]. apply andb_true_iff in Hk. destruct Hk as [X Y]. apply Z.leb_le in X. apply Z.ltb_lt in Y. cbn; lia. }
  assert (GA : grid_ok [3;3] c83_a) by (split; vm_compute; reflexivity).
  split; [apply SH; auto|]. split; [split; vm_compute; reflexivity|].
  split. { split; [intros i [<-|[]]; cbn; lia|right; cbn; lia]. }
  split. { cbn [calls_ok c87_calls]. exists [3;3]. split; [apply SH; auto|]. split; [exact GA|]. split; [reflexivity|]. split; [cbn; lia|].
    split; [apply GP; reflexivity|]. split; [apply GP; reflexivity|].
    exists [3;3]. split; [apply SH; auto|]. split; [exact GA|]. split; [reflexivity|]. split; [lia|].
    split; [apply GP; reflexivity|]. split; [apply GP; reflexivity|exact I]. }
  repeat split; vm_compute; reflexivity.
Qed.

(** What the condition on maps excludes: an FIM run that stopped at its goal keeps its list; on a
    smaller map, without reset, the next compute reads cells that do not exist. *)
Example C87_smaller_map :
  c87_fine (fim_api (comp_margin : F64)) fim_clear (new_grid [4;4] n1) [Compute 200; SetEnvironment (new_grid [2;2] n1); SetPoints [1] 0; Compute 200] = false /\
  c87_fine (fim_api (comp_margin : F64)) fim_clear (new_grid [4;4] n1) [Compute 200; SetEnvironment (new_grid [2;2] n1); SetPoints [1] 0; Reset; Compute 200] = true.
Proof. split; vm_compute; reflexivity. Qed.

Print Assumptions C87_ddqm. Print Assumptions C87_fim. Print Assumptions C87_gmm. Print Assumptions C87_fsm. Print Assumptions C87_lsm.

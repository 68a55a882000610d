(** Prop_Example.v - property theorems C100: solvers used one after the other on one grid, as in
    the example programs. *)
From Coq Require Import Ascii String.
From Verif Require Import Base BaseFacts Num NumF64 NumLaws Grid GridFacts GridMore GridUpd Spec Obs FMMModel SweepModel QueueModel UntidyModel SolverModel HeapRef DaryModel FibModel
  Frame Lifecycle Prop_FMM BagHeap Prop_SFMM Prop_Dary Prop_Sweep SweepOrder Prop_Solver TextModel TextSpec TextFacts IOModel BenchModel Prop_Text Prop_Bench CfgModel Prop_Cfg Prop_CfgRun Examples Prop_Heap Prop_FM2Obj ExampleModel.
Open Scope Z_scope.
Open Scope list_scope.

Section C100.
Context {N : Num}.

(** a new solver of any of the classes, with any parameters *)
Inductive new_solver_of : usolver N -> Prop :=
| new_fmm HO fuel strat nm : new_solver_of (uFMM HO fuel strat nm)
| new_fsm fuel ms nm : new_solver_of (uFSM fuel ms nm)
| new_lsm fuel ms nm : new_solver_of (uLSM fuel ms nm)
| new_ddqm fuel nm : new_solver_of (uDDQM fuel nm)
| new_fim fuel E nm : new_solver_of (uFIM fuel E nm)
| new_gmm fuel dt nm : new_solver_of (uGMM fuel dt nm)
| new_ufmm fuel size inc nm : new_solver_of (uUFMM fuel size inc nm).

(** the result of a computation without the solver object *)
Definition result {O} (r : res (O * grid N)) : res (grid N) := '(_, g) <- r ;; Ok g.

Lemma setup_flag s (g : grid N) s' g' : solver_setup s g = Ok (s', g') -> sv_setup s' = true.
Proof. unfold solver_setup. intros H. apply bind_ok in H. destruct H as [e [_ H]]. destruct (negb _); [discriminate|]. injection H as <- <-. reflexivity. Qed.

(** a run leaves a grid that is flagged as used and cleans to the grid it started from *)
Lemma used_after I (g g' : grid N) : honest g -> frame I (setClean (clean g) false) g' -> clean g' = clean g /\ honest g'.
Proof.
  intros Hh HF. split; [apply (clean_after I (clean g) g' (clean_flag g) (clean_default g Hh) HF)|].
  intros Hc. destruct HF as [_ [_ [_ [K _]]]]. cbn in K. congruence.
Qed.

(** what the loop of the example needs of a solver *)
Record usable (s : usolver N) (g : grid N) (init : list Z) (goal : Z) : Prop := {
  ub_env : exists o, (forall g', clean g' = clean g -> sc_env (bs_class (us_s s)) (bs_obj (us_s s)) (Some g') = Ok (o, clean g)) /\
    let o := sc_points (bs_class (us_s s)) o init goal in
    ('(o1, g1) <- us_setup s o (clean g) ;; sc_compute (bs_class (us_s s)) o1 g1) = sc_compute (bs_class (us_s s)) o (clean g) /\
    (forall o1 g1, sc_compute (bs_class (us_s s)) o (clean g) = Ok (o1, g1) -> clean g1 = clean g /\ honest g1)
}.

Lemma sweep_usable run fuel ms (g : grid N) init goal :
  (forall fuel m k ini sw incs (g : grid N) r, run fuel m k ini sw incs g = Ok r -> frame (fun i => In i ini) g (sw_g (fst (fst r)))) -> honest g ->
  exists o, (forall g', clean g' = clean g -> fsm_setEnvironment (fsm_new ms) (Some g') = Ok (o, clean g)) /\
    let o := fsm_setPoints o init goal in
    ('(o1, g1) <- fsm_setup o (clean g) ;; sweep_compute run fuel o1 g1) = sweep_compute run fuel o (clean g) /\
    (forall o1 g1, sweep_compute run fuel o (clean g) = Ok (o1, g1) -> clean g1 = clean g /\ honest g1).
Proof.
  intros Hf Hh. eexists. split; [intros g' E; unfold fsm_setEnvironment, setEnvironment; cbn [bind]; rewrite E; reflexivity|].
  cbv zeta. set (o := fsm_setPoints _ init goal). assert (Es : sv_setup (so_s o) = false) by reflexivity. split.
  - unfold sweep_compute at 2. rewrite Es. unfold fsm_setup. destruct (solver_setup (so_s o) (clean g)) as [[s1 g1]|f] eqn:E; cbn [bind]; [|reflexivity].
    unfold sweep_compute. cbn [so_s so_sweeps so_max so_incs so_dims]. rewrite (setup_flag _ _ _ _ E). reflexivity.
  - intros o1 g1 H. unfold sweep_compute in H. rewrite Es in H. apply bind_ok in H. destruct H as [[oa ga] [Ha H]].
    unfold fsm_setup in Ha. apply bind_ok in Ha. destruct Ha as [[s1 gb] [H1 Ha]]. injection Ha as <- <-. cbn [so_s so_sweeps so_max so_incs so_dims] in H.
    apply bind_ok in H. destruct H as [k [_ H]]. pose proof (solver_setup_ok _ _ _ _ H1) as [_ [Eg1 _]]. rewrite Eg1 in H.
    apply bind_ok in H. destruct H as [[[st n] incs] [Hr H]]. injection H as <- <-.
    eapply used_after; [exact Hh|]. exact (Hf _ _ _ _ _ _ _ _ Hr).
Qed.

Lemma new_usable (s : usolver N) (g : grid N) init goal : new_solver_of s -> honest g -> usable s g init goal.
Proof.
  intros Hn Hh. destruct Hn; split.
  - eexists. split; [intros g' E; cbn [us_s uFMM bs_class cFMM sc_env bs_obj]; unfold fmm_setEnvironment, setEnvironment; cbn [bind]; rewrite E; reflexivity|].
    cbv zeta. set (o := sc_points _ _ init goal). cbn [us_s us_setup uFMM bs_class cFMM sc_compute].
    split.
    + unfold fmm_compute at 2. assert (Es : sv_setup (fo_s o) = false) by reflexivity. rewrite Es.
      destruct (fmm_setup HO o (clean g)) as [[o1 g1]|f] eqn:E; cbn [bind]; [|reflexivity].
      unfold fmm_compute. destruct (fmm_setup_cases _ _ _ _ _ E) as [s1 [k [H1 [Hk Hc]]]].
      assert (Eo : fo_s o1 = s1) by (destruct Hc as [[_ ->]|[[_ [_ ->]]|[_ [_ [gc [d [_ [_ ->]]]]]]]]; reflexivity).
      rewrite Eo, (setup_flag _ _ _ _ H1). cbn [bind]. rewrite Eo. reflexivity.
    + intros o1 g1 H. unfold fmm_compute in H. assert (Es : sv_setup (fo_s o) = false) by reflexivity. rewrite Es in H.
      apply bind_ok in H. destruct H as [[oa ga] [Ha H]]. destruct (fmm_setup_cases _ _ _ _ _ Ha) as [s1 [k [H1 [Hk Hc]]]].
      apply bind_ok in H. destruct H as [k' [_ H]]. apply bind_ok in H. destruct H as [[st log] [Hr H]]. injection H as <- <-.
      pose proof (solver_setup_ok _ _ _ _ H1) as [_ [Eg1 _]]. rewrite Eg1 in Hr.
      eapply used_after; [exact Hh|]. eapply (fmm_run_frame (fun i => In i (sv_init (fo_s oa)))); [|exact Hr]. auto.
  - apply (sweep_usable fsm_run fuel ms g init goal); [|exact Hh]. intros. eapply fsm_run_frame; [|eassumption]. auto.
  - apply (sweep_usable lsm_run fuel ms g init goal); [|exact Hh]. intros. eapply lsm_run_frame; [|eassumption]. auto.
  - eexists. split; [intros g' E; cbn [us_s uDDQM bs_class cDDQM sc_env bs_obj]; unfold ddqm_setEnvironment, setEnvironment; cbn [bind]; rewrite E; reflexivity|].
    cbv zeta. set (o := sc_points _ _ init goal). cbn [us_s us_setup uDDQM bs_class cDDQM sc_compute].
    assert (Es : sv_setup (do_s o) = false) by reflexivity. split.
    + unfold ddqm_compute at 2, ensure_setup. rewrite Es. unfold ddqm_setup. destruct (solver_setup (do_s o) (clean g)) as [[s1 g1]|f] eqn:E; cbn [bind]; [|reflexivity].
      unfold ddqm_compute, ensure_setup. cbn [do_s do_th do_step do_q0 do_q1]. rewrite (setup_flag _ _ _ _ E). reflexivity.
    + intros o1 g1 H. unfold ddqm_compute, ensure_setup in H. rewrite Es in H. apply bind_ok in H. destruct H as [[s1 gb] [H1 H]].
      apply bind_ok in H. destruct H as [k [_ H]]. pose proof (solver_setup_ok _ _ _ _ H1) as [_ [Eg1 _]]. rewrite Eg1 in H.
      destruct (do_th o); [|discriminate]. destruct (do_step o); [|discriminate].
      apply bind_ok in H. destruct H as [[[r q0] q1] [Hr H]]. injection H as <- <-.
      eapply used_after; [exact Hh|]. apply (ddqm_run_frame (fun i => In i (sv_init s1)) _ _ _ _ _ _ _ (fun i Hi => Hi) (ddqm_resume_run _ _ _ _ _ _ _ _ _ Hr)).
  - eexists. split; [intros g' E0; cbn [us_s uFIM bs_class cFIM sc_env bs_obj]; unfold fim_setEnvironment, setEnvironment; cbn [bind]; rewrite E0; reflexivity|].
    cbv zeta. set (o := sc_points _ _ init goal). cbn [us_s us_setup uFIM bs_class cFIM sc_compute].
    assert (Es : sv_setup (io_s o) = false) by reflexivity. assert (El : io_list o = []) by reflexivity. split.
    + unfold fim_compute at 2, ensure_setup. rewrite Es. unfold fim_setup. destruct (solver_setup (io_s o) (clean g)) as [[s1 g1]|f] eqn:E0; cbn [bind]; [|reflexivity].
      unfold fim_compute, ensure_setup. cbn [io_s io_list io_E]. rewrite (setup_flag _ _ _ _ E0). reflexivity.
    + intros o1 g1 H. unfold fim_compute, ensure_setup in H. rewrite Es, El in H. apply bind_ok in H. destruct H as [[s1 gb] [H1 H]].
      apply bind_ok in H. destruct H as [k [_ H]]. pose proof (solver_setup_ok _ _ _ _ H1) as [_ [Eg1 _]]. rewrite Eg1 in H.
      apply bind_ok in H. destruct H as [[[g2 l] ub] [Hr H]]. injection H as <- <-.
      eapply used_after; [exact Hh|]. apply (fim_run_frame (fun i => In i (sv_init s1)) _ _ _ _ _ _ (fun i Hi => Hi) Hr).
  - eexists. split; [intros g' E0; cbn [us_s uGMM bs_class cGMM sc_env bs_obj]; unfold gmm_setEnvironment, setEnvironment; cbn [bind]; rewrite E0; reflexivity|].
    cbv zeta. set (o := sc_points _ _ init goal). cbn [us_s us_setup uGMM bs_class cGMM sc_compute].
    assert (Es : sv_setup (go_s o) = false) by reflexivity. assert (El : go_gamma o = []) by reflexivity. split.
    + unfold gmm_compute at 2. rewrite Es. unfold gmm_setup. destruct (solver_setup (go_s o) (clean g)) as [[s1 g1]|f] eqn:E0; cbn [bind]; [|reflexivity].
      unfold gmm_compute. cbn [go_s go_dt go_gamma]. rewrite (setup_flag _ _ _ _ E0). reflexivity.
    + intros o1 g1 H. unfold gmm_compute in H. rewrite Es in H. apply bind_ok in H. destruct H as [[oa ga] [Ha H]].
      unfold gmm_setup in Ha. apply bind_ok in Ha. destruct Ha as [[s1 gb] [H1 Ha]]. injection Ha as <- <-. cbn [go_s go_dt go_gamma] in H. try rewrite El in H.
      apply bind_ok in H. destruct H as [k [_ H]]. pose proof (solver_setup_ok _ _ _ _ H1) as [_ [Eg1 _]]. rewrite Eg1 in H.
      apply bind_ok in H. destruct H as [r [Hr H]]. injection H as <- <-.
      eapply used_after; [exact Hh|]. apply (gmm_run_frame (fun i => In i (sv_init s1)) _ _ _ _ _ _ (fun i Hi => Hi) Hr).
  - eexists. split; [intros g' E0; cbn [us_s uUFMM bs_class cUFMM sc_env bs_obj]; unfold ufmm_setEnvironment, setEnvironment; cbn [bind]; rewrite E0; reflexivity|].
    cbv zeta. set (o := sc_points _ _ init goal). cbn [us_s us_setup uUFMM bs_class cUFMM sc_compute].
    assert (Es : sv_setup (uo_s o) = false) by reflexivity. split.
    + unfold ufmm_compute at 2, ensure_setup. rewrite Es. unfold ufmm_setup. destruct (solver_setup (uo_s o) (clean g)) as [[s1 g1]|f] eqn:E0; cbn [bind]; [|reflexivity].
      unfold ufmm_compute, ensure_setup. cbn [uo_s uo_q]. rewrite (setup_flag _ _ _ _ E0). reflexivity.
    + intros o1 g1 H. unfold ufmm_compute, ensure_setup in H. rewrite Es in H. apply bind_ok in H. destruct H as [[s1 gb] [H1 H]].
      apply bind_ok in H. destruct H as [k [_ H]]. pose proof (solver_setup_ok _ _ _ _ H1) as [_ [Eg1 _]]. rewrite Eg1 in H.
      apply bind_ok in H. destruct H as [[st log] [Hr H]]. injection H as <- <-.
      eapply used_after; [exact Hh|]. apply (ufmm_run_frame (fun i => In i (sv_init s1)) _ _ _ _ _ _ (fun i Hi => Hi) Hr).
Qed.

(** one turn of the loop *)
Lemma turn (pre : bool) (s : usolver N) (g g0 : grid N) init goal : new_solver_of s -> honest g -> clean g0 = clean g ->
  exists o, sc_env (bs_class (us_s s)) (bs_obj (us_s s)) (Some g0) = Ok (o, clean g) /\ sc_env (bs_class (us_s s)) (bs_obj (us_s s)) (Some g) = Ok (o, clean g) /\
  let o := sc_points (bs_class (us_s s)) o init goal in
  ('(o1, g1) <- (if pre then us_setup s o (clean g) else Ok (o, clean g)) ;; sc_compute (bs_class (us_s s)) o1 g1) = sc_compute (bs_class (us_s s)) o (clean g) /\
  (forall o1 g1, sc_compute (bs_class (us_s s)) o (clean g) = Ok (o1, g1) -> clean g1 = clean g).
Proof.
  intros Hn Hh E. destruct (new_usable s g init goal Hn Hh) as [[o [A [B C]]]]. exists o. split; [apply A; exact E|]. split; [apply A; reflexivity|].
  cbv zeta in B, C |- *. split; [destruct pre; [exact B|reflexivity]|]. intros o1 g1 H. apply (C o1 g1 H).
Qed.

Lemma one_step (pre : bool) (s : usolver N) (rest : list (usolver N)) init goal (g g0 : grid N) : new_solver_of s -> honest g -> clean g0 = clean g ->
  exists o, sc_env (bs_class (us_s s)) (bs_obj (us_s s)) (Some g) = Ok (o, clean g) /\
  (forall o1 g1, sc_compute (bs_class (us_s s)) (sc_points (bs_class (us_s s)) o init goal) (clean g) = Ok (o1, g1) -> clean g1 = clean g) /\
  one_by_one pre (s :: rest) init goal g0 =
  ('(_, g1) <- sc_compute (bs_class (us_s s)) (sc_points (bs_class (us_s s)) o init goal) (clean g) ;; gs <- one_by_one pre rest init goal g1 ;; Ok (g1 :: gs)).
Proof.
  intros Hn Hh E. destruct (turn pre s g g0 init goal Hn Hh E) as [o [A [B [C D]]]]. cbv zeta in C, D. exists o. split; [exact B|]. split; [exact D|].
  cbn [one_by_one]. rewrite A. cbn [bind]. rewrite <- C. destruct (if pre then _ else _) as [[o1 g1]|f]; reflexivity.
Qed.

(** C100: every solver that is used in turn on the grid leaves what it computes when it is
    the only one to use the map; calling setup() first makes no difference *)
Theorem C100_each_answer_is_the_solvers_own :
  forall pre (ss : list (usolver N)) init goal (g : grid N) gs,
  honest g -> Forall new_solver_of ss -> one_by_one pre ss init goal g = Ok gs ->
  Forall2 (fun s r => alone (us_s s) g init goal r) ss gs.
Proof.
  intros pre ss init goal g gs Hh Hn. assert (E : clean g = clean g) by reflexivity. revert E. generalize g at 1 3. revert gs.
  induction Hn as [|s ss Hs Hn IH]; intros gs g0 E H; [cbn in H; injection H as <-; constructor|].
  destruct (one_step pre s ss init goal g g0 Hs Hh E) as [o [A [B C]]]. rewrite C in H.
  apply bind_ok in H. destruct H as [[o1 g1] [H1 H]]. apply bind_ok in H. destruct H as [gs' [H2 H]]. injection H as <-. constructor.
  - exists o, (clean g), o1. auto.
  - apply (IH gs' g1); [apply (B _ _ H1)|exact H2].
Qed.

(** C100: and if every solver comes to its end when alone, so does the sequence *)
Theorem C100_the_sequence_ends :
  forall pre (ss : list (usolver N)) init goal (g : grid N),
  honest g -> Forall new_solver_of ss -> (forall s, In s ss -> exists r, alone (us_s s) g init goal r) ->
  exists gs, one_by_one pre ss init goal g = Ok gs.
Proof.
  intros pre ss init goal g Hh Hn Ha. assert (E : clean g = clean g) by reflexivity. revert E. generalize g at 1 3.
  induction Hn as [|s ss Hs Hn IH]; intros g0 E; [exists []; reflexivity|].
  destruct (one_step pre s ss init goal g g0 Hs Hh E) as [o [A [B C]]].
  destruct (Ha s (or_introl eq_refl)) as [r [o' [g' [o1 [H1 H2]]]]]. rewrite A in H1. injection H1 as <- <-.
  destruct (IH (fun s' Hs' => Ha s' (or_intror Hs')) r) as [gs Hgs]; [apply (B _ _ H2)|].
  exists (r :: gs). rewrite C, H2. cbn [bind]. rewrite Hgs. reflexivity.
Qed.

(** C100: and what each computes alone is the run of its algorithm with the parameters it was
    made with, on the cleaned map *)
Theorem C100_what_each_solver_computes :
  forall init goal (g r : grid N), let g0 := setClean (clean g) false in let goal' := u32 goal in
  (forall HO fuel strat nm, alone (us_s (uFMM HO fuel strat nm)) g init goal r ->
     exists st log dist coord, fs_g st = r /\
       (strat = NOHEUR \/ s32 goal' = -1 -> fmm_run HO fuel (mkCfg NOHEUR dist coord) goal' init g0 (hempty HO) = Ok (st, log)) /\
       (strat <> NOHEUR -> s32 goal' <> -1 -> idx2coord (g_sh g) goal' = Ok coord /\ precomputeDistances (g_sh g) = Ok dist /\
          fmm_run HO fuel (mkCfg strat dist coord) goal' init g0 (hempty HO) = Ok (st, log))) /\
  (forall fuel ms nm, alone (us_s (uFSM fuel ms nm)) g init goal r ->
     exists st n incs, sw_g st = r /\ fsm_run fuel (u32 ms) goal' init 0 (init_incs (length (s_dims (g_sh g)))) g0 = Ok (st, n, incs)) /\
  (forall fuel ms nm, alone (us_s (uLSM fuel ms nm)) g init goal r ->
     exists st n incs, sw_g st = r /\ lsm_run fuel (u32 ms) goal' init 0 (init_incs (length (s_dims (g_sh g)))) g0 = Ok (st, n, incs)) /\
  (forall fuel nm, alone (us_s (uDDQM fuel nm)) g init goal r ->
     exists st, dq_g st = r /\ ddqm_run fuel goal' init (ddqm_env_step (clean g)) (ddqm_env_step (clean g)) g0 = Ok st) /\
  (forall fuel E nm, alone (us_s (uFIM fuel E nm)) g init goal r ->
     exists l ub, fim_run fuel E goal' init g0 = Ok (r, l, ub)) /\
  (forall fuel dt nm, alone (us_s (uGMM fuel dt nm)) g init goal r ->
     exists st, gm_g st = r /\ gmm_run fuel (gmm_setup_dt dt g0) goal' init g0 = Ok st) /\
  (forall fuel size inc nm, alone (us_s (uUFMM fuel size inc nm)) g init goal r ->
     exists st log, uf_g st = r /\ ufmm_run fuel goal' init g0 (uq_new size inc) = Ok (st, log)).
Proof.
  intros init goal g r g0 goal'. assert (Esh : g_sh (clean g) = g_sh g) by (unfold clean; destruct (g_clean g); reflexivity).
  split; [|split; [|split; [|split; [|split; [|split]]]]]; intros; destruct H as [o [gx [o1 [H1 H2]]]];
    cbn [us_s uFMM uFSM uLSM uDDQM uFIM uGMM uUFMM bs_class cFMM cFSM cLSM cDDQM cFIM cGMM cUFMM sc_env sc_points sc_compute bs_obj] in H1, H2;
    unfold fmm_setEnvironment, fsm_setEnvironment, ddqm_setEnvironment, fim_setEnvironment, gmm_setEnvironment, ufmm_setEnvironment, setEnvironment in H1;
    cbn [bind] in H1; injection H1 as <- <-.
  - unfold fmm_compute in H2. apply bind_ok in H2. destruct H2 as [[oa ga] [Ha H2]]. cbn [fo_s fmm_setPoints fmm_with_solver setInitialAndGoalPoints sv_setup new_solver fmm_new] in Ha.
    destruct (fmm_setup_cases _ _ _ _ _ Ha) as [s1 [k [Hs [Hk Hc]]]]. pose proof (solver_setup_ok _ _ _ _ Hs) as [Es [Eg _]].
    apply bind_ok in H2. destruct H2 as [k' [Hk' H2]]. apply bind_ok in H2. destruct H2 as [[st log] [Hr H2]]. injection H2 as <- <-.
    rewrite Es in Hk. cbn in Hk. injection Hk as <-. subst s1 ga.
    exists st, log, (fo_dist oa), (fo_coord oa). split; [reflexivity|].
    cbn [fo_strat fo_band fo_dist fo_coord fo_pre fmm_setPoints fmm_with_solver fmm_new] in Hc.
    destruct Hc as [[Hn ->]|[[Hn [Hm ->]]|[Hn [Hm [gc [d [Hgc [Hd ->]]]]]]]]; cbn in Hk', Hr |- *; injection Hk' as <-; split.
    + intros _. exact Hr.
    + intros K. contradiction.
    + intros _. exact Hr.
    + intros _ K. contradiction.
    + intros [K|K]; contradiction.
    + intros _ _. change (g_sh (setClean (clean g) false)) with (g_sh (clean g)) in Hgc, Hd. rewrite Esh in Hgc, Hd. split; [exact Hgc|]. split; [exact Hd|exact Hr].
  - unfold fsm_compute, sweep_compute in H2. apply bind_ok in H2. destruct H2 as [[oa ga] [Ha H2]]. cbn in Ha. unfold fsm_setup in Ha.
    apply bind_ok in Ha. destruct Ha as [[s1 gb] [Hs Ha]]. pose proof (solver_setup_ok _ _ _ _ Hs) as [Es [Eg _]]. injection Ha as <- <-. subst s1 gb.
    cbn in H2. rewrite Esh in H2. apply bind_ok in H2. destruct H2 as [[[st n] incs] [Hr H2]]. injection H2 as <- <-. exists st, n, incs. split; [reflexivity|exact Hr].
  - unfold lsm_compute, sweep_compute in H2. apply bind_ok in H2. destruct H2 as [[oa ga] [Ha H2]]. cbn in Ha. unfold fsm_setup in Ha.
    apply bind_ok in Ha. destruct Ha as [[s1 gb] [Hs Ha]]. pose proof (solver_setup_ok _ _ _ _ Hs) as [Es [Eg _]]. injection Ha as <- <-. subst s1 gb.
    cbn in H2. rewrite Esh in H2. apply bind_ok in H2. destruct H2 as [[[st n] incs] [Hr H2]]. injection H2 as <- <-. exists st, n, incs. split; [reflexivity|exact Hr].
  - unfold ddqm_compute, ensure_setup in H2. apply bind_ok in H2. destruct H2 as [[s1 gb] [Hs H2]]. cbn in Hs.
    pose proof (solver_setup_ok _ _ _ _ Hs) as [Es [Eg _]]. subst s1 gb. cbn in H2. apply bind_ok in H2. destruct H2 as [[[st q0] q1] [Hr H2]]. injection H2 as <- <-.
    exists st. split; [reflexivity|]. exact (ddqm_resume_run _ _ _ _ _ _ _ _ _ Hr).
  - unfold fim_compute, ensure_setup in H2. apply bind_ok in H2. destruct H2 as [[s1 gb] [Hs H2]]. cbn in Hs.
    pose proof (solver_setup_ok _ _ _ _ Hs) as [Es [Eg _]]. subst s1 gb. cbn in H2. apply bind_ok in H2. destruct H2 as [[[g2 l] ub] [Hr H2]]. injection H2 as <- <-.
    exists l, ub. exact Hr.
  - unfold gmm_compute in H2. apply bind_ok in H2. destruct H2 as [[oa ga] [Ha H2]]. cbn in Ha. unfold gmm_setup in Ha.
    apply bind_ok in Ha. destruct Ha as [[s1 gb] [Hs Ha]]. pose proof (solver_setup_ok _ _ _ _ Hs) as [Es [Eg _]]. injection Ha as <- <-. subst s1 gb.
    cbn in H2. apply bind_ok in H2. destruct H2 as [st [Hr H2]]. injection H2 as <- <-. exists st. split; [reflexivity|exact Hr].
  - unfold ufmm_compute, ensure_setup in H2. apply bind_ok in H2. destruct H2 as [[s1 gb] [Hs H2]]. cbn in Hs.
    pose proof (solver_setup_ok _ _ _ _ Hs) as [Es [Eg _]]. subst s1 gb. cbn in H2. apply bind_ok in H2. destruct H2 as [[st log] [Hr H2]]. injection H2 as <- <-.
    exists st, log. split; [reflexivity|exact Hr].
Qed.

(** C100: setup() before compute() makes no difference, whatever the outcome *)
Theorem C100_explicit_setup_makes_no_difference :
  forall (ss : list (usolver N)) init goal (g : grid N),
  honest g -> Forall new_solver_of ss -> one_by_one true ss init goal g = one_by_one false ss init goal g.
Proof.
  intros ss init goal g Hh Hn. assert (E : clean g = clean g) by reflexivity. revert E. generalize g at 1 3 4.
  induction Hn as [|s ss Hs Hn IH]; intros g0 E; [reflexivity|].
  destruct (one_step true s ss init goal g g0 Hs Hh E) as [o [A [B C]]]. destruct (one_step false s ss init goal g g0 Hs Hh E) as [o' [A' [B' C']]].
  rewrite A in A'. injection A' as <-. rewrite C, C'.
  destruct (sc_compute _ _ _) as [[o1 g1]|f] eqn:H1; [|reflexivity]. cbn [bind]. rewrite (IH g1); [reflexivity|]. apply (B _ _ eq_refl).
Qed.
End C100.

(** ** test_fmm3d *)
Section Fmm3d.
Context {N : Num} (readD : text -> option N) (showD : N -> text).

Lemma fmm3d_run fuel f more textfile (g : grid N) i :
  loadMapFromText readD 3 (textfile f) empty_grid = Ok (1, g) -> coord2idx (g_sh g) [5;5;5] = Ok i ->
  test_fmm3d readD showD fuel (f :: more) textfile =
  ('(_, r) <- fmm_compute DaryHeap fuel (fmm_setPoints DaryHeap (mkFmm (mkSolver GSet false [] None) (hempty DaryHeap) NOHEUR [] false []) [i] (-1)) (clean g) ;;
   t <- saveGridValues showD r ;; Ok (0, [(str "3dresult.grid", t)])).
Proof.
  intros Hl Hi. unfold test_fmm3d. rewrite Hl. cbn [bind Z.eqb]. unfold fmm_setEnvironment, setEnvironment, fmm_new, new_solver. cbn [bind fo_s sv_setup sv_init sv_goal fmm_with_solver fo_band fo_strat fo_dist fo_pre fo_coord].
  unfold setInitialCoords. cbn [sv_grid]. assert (Es : g_sh (clean g) = g_sh g) by (unfold clean; destruct (g_clean g); reflexivity). rewrite Es, Hi. reflexivity.
Qed.

Lemma index555 w h d : 1 <= w -> 1 <= h -> 1 <= d -> w * h * d < 4294967296 -> 5 + 5 * w + 5 * (w * h) < 4294967296 ->
  coord2idx (mk_shape [w; h; d]) [5; 5; 5] = Ok (5 + 5 * w + 5 * (w * h)).
Proof.
  intros Hw Hh Hd Hlt Hi. assert (w * h <= w * h * d) by nia. assert (w <= w * h) by nia.
  rewrite mk_shape_eq; [|repeat constructor; lia|cbn; lia]. unfold coord2idx. cbn -[Z.mul Z.add u32].
  rewrite !Z.mul_1_l. revert H H0 Hi. generalize (w * h). intros k Hk Hwk Hi.
  rewrite (u32_small (5 * w)) by lia. rewrite (u32_small (5 * k)) by lia. rewrite (u32_small (5 + 5 * w)) by lia. rewrite u32_small by lia. reflexivity.
Qed.

(** C100: test_fmm3d starts at the cell with index 5 + 5w + 5wh of a map of w x h x d cells:
    (5,5,5) if that lies inside.  Beyond the last cell this is undefined behaviour; at an
    obstacle the program exits with status 1 *)
Theorem C100_fmm3d_start :
  forall fuel f more textfile (g : grid N) w h d, loadMapFromText readD 3 (textfile f) empty_grid = Ok (1, g) ->
  grid_ok [w; h; d] g -> 1 <= w -> 1 <= h -> 1 <= d -> w * h * d < 4294967296 -> 5 + 5 * w + 5 * (w * h) < 4294967296 ->
  let i := 5 + 5 * w + 5 * (w * h) in
  (w * h * d <= i -> test_fmm3d readD showD fuel (f :: more) textfile = Fail UB) /\
  (i < w * h * d -> obstacle g i -> test_fmm3d readD showD fuel (f :: more) textfile = Fail (Exit 1)) /\
  (6 <= w -> 6 <= h -> 6 <= d -> cell_number [w; h; d] [5; 5; 5] = i).
Proof.
  intros fuel f more textfile g w h d Hl Hg Hw Hh Hd Hlt Hi i. destruct Hg as [Hs Hc].
  assert (Ebox : box_size [w; h; d] = w * h * d) by (cbn; ring). rewrite Ebox in Hc.
  assert (Ei : coord2idx (g_sh g) [5;5;5] = Ok i) by (rewrite Hs; apply index555; assumption).
  rewrite (fmm3d_run fuel f more textfile g i Hl Ei). unfold fmm_compute, fmm_setPoints, fmm_with_solver, fmm_setup, solver_setup, sanityChecks, setInitialAndGoalPoints.
  cbn [fo_s fo_band fo_strat fo_dist fo_pre fo_coord sv_setup sv_grid sv_init sv_goal]. rewrite clean_flag. cbn [negb].
  assert (El : List.length (g_cells (clean g)) = List.length (g_cells g)) by (unfold clean; destruct (g_clean g); cbn [negb g_cells]; [|rewrite map_length]; reflexivity).
  split; [|split].
  - intros Hout. rewrite (getCell_out (clean g) i); [reflexivity|]. rewrite El, Hc. lia.
  - intros Hin [c [Ec Ho]].
    assert (Ec' : exists c', getCell (clean g) i = Ok c' /\ isOccupied c' = true).
    { destruct (getCell (clean g) i) as [c'|] eqn:E.
      - exists c'. split; [reflexivity|]. destruct (occ_clean g i c' E) as [c2 [E2 Ho2]]. congruence.
      - exfalso. unfold getCell in E, Ec. apply vget_ok in Ec. destruct Ec as [E0 En]. unfold vget in E. destruct (Z.leb_spec 0 i); [|lia].
        destruct (nth_error (g_cells (clean g)) (Z.to_nat i)) eqn:E1; [discriminate|]. apply nth_error_None in E1. assert (nth_error (g_cells g) (Z.to_nat i) <> None) by congruence. apply nth_error_Some in H0. lia. }
    destruct Ec' as [c' [Ec' Ho']]. rewrite Ec'. cbn [bind]. rewrite Ho'. reflexivity.
  - intros. cbn -[Z.mul Z.add]. unfold i. ring.
Qed.

(** C100: without an argument, or if the file cannot be opened, undefined behaviour *)
Theorem C100_fmm3d_no_map : forall fuel f more textfile,
  test_fmm3d readD showD fuel [] textfile = Fail UB /\
  (textfile f = None -> test_fmm3d readD showD fuel (f :: more) textfile = Fail UB).
Proof. intros. split; [reflexivity|]. intros E. unfold test_fmm3d. rewrite E. reflexivity. Qed.
End Fmm3d.

(** C100: in doubles, on a map of at least two and at most 65536 cells in each dimension, with
    a start that is free: status 0, and the file written holds what FMM computes on the map *)
Theorem C100_fmm3d_answers :
  forall (readD : text -> option F64) showD f more textfile (g : grid F64) w h d, loadMapFromText readD 3 (textfile f) empty_grid = Ok (1, g) ->
  grid_ok [w; h; d] g -> 2 <= w <= 65536 -> 2 <= h <= 65536 -> 2 <= d <= 65536 -> shape_ok [w; h; d] -> free g (5 + 5 * w + 5 * (w * h)) ->
  exists k, forall fuel, (k <= fuel)%nat -> exists r t,
    alone (mkBS (cFMM DaryHeap fuel) (fmm_new DaryHeap NOHEUR) (str "FMM")) g [5 + 5 * w + 5 * (w * h)] noGoal r /\
    saveGridValues showD r = Ok t /\
    test_fmm3d readD showD fuel (f :: more) textfile = Ok (0, [(str "3dresult.grid", t)]).
Proof.
  intros readD showD f more textfile g w h d Hl Hg Hw Hh Hd Hsh Hfree. set (i := 5 + 5 * w + 5 * (w * h)) in *.
  assert (Hrange : 0 <= i < box_size [w; h; d]).
  { destruct Hfree as [c [Hc _]]. apply getCell_range in Hc. destruct Hg as [_ Hg]. rewrite Hg in Hc. exact Hc. }
  assert (Ebox : box_size [w; h; d] = w * h * d) by (cbn; ring). assert (Hlt : w * h * d < 2147483649) by (rewrite <- Ebox; destruct Hsh; lia).
  assert (Hi : coord2idx (g_sh g) [5;5;5] = Ok i).
  { rewrite (proj1 Hg). apply index555; lia. }
  assert (P : problem [w; h; d] g [i] noGoal).
  { constructor; [exact Hsh|cbn; lia|repeat constructor; lia|exact Hg| | |left; reflexivity].
    - split; [discriminate|]. intros j [<-|[]]. exact Hrange.
    - intros j E. injection E as <-. exact Hfree. }
  assert (Hho : honest g) by (intros _; destruct (text_tidy readD textfile 3 f g 1 Hl ltac:(lia)) as [[A _] _]; exact A).
  destruct (fmm_alone [w; h; d] g [i] noGoal showD P Hho DaryHeap NOHEUR (str "FMM") C15_fmm_with_fmdaryheap_terminates) as [k K].
  exists k. intros fuel Hf. destruct (K fuel Hf) as [r [Ha [t Ht]]]. exists r, t. split; [exact Ha|]. split; [exact Ht|].
  rewrite (fmm3d_run readD showD fuel f more textfile g i Hl Hi). destruct Ha as [o [g0 [o1 [E1 E2]]]]. injection E1 as <- <-. 
  cbn [bs_class sc_compute cFMM sc_points] in E2.
  change (u32 noGoal) with (u32 (-1)) in E2. 
  match goal with |- bind ?X _ = _ => assert (E3 : X = Ok (o1, r)) by (exact E2); rewrite E3 end. cbn [bind]. rewrite Ht. reflexivity.
Qed.

(** ** in doubles: which solvers come to their end *)
Section Ends.
Variables (dims : list Z) (g : grid F64) (init : list Z) (goal : Z).
Hypothesis P : problem dims g init goal.
Hypothesis Hh : honest g.

Lemma lsm_alone m nm : exists k, forall fuel, (k <= fuel)%nat -> exists r, alone (mkBS (cLSM fuel) (fsm_new m) nm) g init goal r.
Proof.
  destruct (set_up dims g init goal P Hh (mkSolver GSet false [] None) eq_refl) as [s' [E1 [E2 [E3 [E4 E5]]]]].
  pose proof (gk_clean dims g init goal P Hh) as Gk.
  assert (Ed : s_dims (g_sh (clean g)) = dims) by (rewrite <- (shape_dims dims); f_equal; exact (proj1 (proj1 Gk))).
  destruct (C32_lsm_terminates_doubles dims _ init (u32 m) (u32 goal) 0 (init_incs (List.length dims)) (pb_shape _ _ _ _ P) (proj1 Gk) (proj2 (pb_init _ _ _ _ P)) (C30_initial_directions _)) as [k [[[st sw] incs] R]].
  exists k. intros fuel Hf. specialize (R fuel Hf). exists (sw_g st).
  eexists _, _, _. split; [reflexivity|]. cbn [bs_class bs_obj cLSM sc_points sc_compute]. unfold lsm_compute, sweep_compute, fsm_setPoints. cbn [so_s so_sweeps so_max so_incs so_dims fsm_new sv_setup setInitialAndGoalPoints new_solver].
  unfold fsm_setup. cbn [so_s so_sweeps so_max so_incs so_dims].
  unfold setInitialAndGoalPoints in E1 |- *. cbn [sv_setup sv_grid sv_init sv_goal] in E1 |- *. rewrite E1. cbn [bind so_s so_sweeps so_max so_incs so_dims]. unfold goal_of. rewrite E3. cbn [bind]. rewrite E2, Ed, R. cbn [bind]. reflexivity.
Qed.

Lemma ddqm_alone nm : exists k, forall fuel, (k <= fuel)%nat -> exists r, alone (mkBS (cDDQM fuel) ddqm_new nm) g init goal r.
Proof.
  destruct (set_up dims g init goal P Hh (mkSolver GSet false [] None) eq_refl) as [s' [E1 [E2 [E3 [E4 E5]]]]].
  pose proof (gk_clean dims g init goal P Hh) as Gk. set (th := ddqm_env_step (clean g)).
  destruct (C35_ddqm_terminates_doubles dims _ init (u32 goal) th th (pb_shape _ _ _ _ P) (proj1 Gk) (proj2 (pb_init _ _ _ _ P))) as [k [st R]].
  exists k. intros fuel Hf. specialize (R fuel Hf). rewrite ddqm_resume_nil in R. apply bind_ok in R. destruct R as [[[r q0] q1] [R' R]].
  exists (dq_g r). eexists _, _, _. split; [reflexivity|]. cbn [bs_class bs_obj cDDQM sc_points sc_compute]. unfold ddqm_compute, ensure_setup, ddqm_setPoints. cbn [do_s do_th do_step do_q0 do_q1 ddqm_new sv_setup setInitialAndGoalPoints new_solver].
  unfold setInitialAndGoalPoints in E1 |- *. cbn [sv_setup sv_grid sv_init sv_goal] in E1 |- *. rewrite E1. cbn [bind]. unfold goal_of. rewrite E3. cbn [bind]. rewrite E2.
  fold th. rewrite R'. cbn [bind]. reflexivity.
Qed.

(** the solvers of the example with a bound on their steps still to be chosen: FMM with any
    of the library's queues and any heuristics, FSM, LSM, DDQM *)
Inductive ends_in_doubles : (nat -> usolver F64) -> Prop :=
| e_fmm (HO : HeapOps F64) strat nm : BagLaws HO -> ends_in_doubles (fun fuel => uFMM HO fuel strat nm)
| e_fsm ms nm : ends_in_doubles (fun fuel => uFSM fuel ms nm)
| e_lsm ms nm : ends_in_doubles (fun fuel => uLSM fuel ms nm)
| e_ddqm nm : ends_in_doubles (fun fuel => uDDQM fuel nm).

Lemma ends_alone s : ends_in_doubles s -> exists k, forall fuel, (k <= fuel)%nat -> new_solver_of (s fuel) /\ exists r, alone (us_s (s fuel)) g init goal r.
Proof.
  intros [HO strat nm BL|ms nm|ms nm|nm].
  - destruct (fmm_alone dims g init goal (fun _ => []) P Hh HO strat nm (C15_fmm_terminates_doubles_any_sources HO BL)) as [k K]. exists k. intros fuel Hf. split; [constructor|].
    destruct (K fuel Hf) as [r [Ha _]]. eauto.
  - destruct (fsm_alone dims g init goal (fun _ => []) P Hh ms nm) as [k K]. exists k. intros fuel Hf. split; [constructor|]. destruct (K fuel Hf) as [r [Ha _]]. eauto.
  - destruct (lsm_alone ms nm) as [k K]. exists k. intros fuel Hf. split; [constructor|]. apply K. exact Hf.
  - destruct (ddqm_alone nm) as [k K]. exists k. intros fuel Hf. split; [constructor|]. apply K. exact Hf.
Qed.
End Ends.

(** C100: in doubles the loop of the example over such solvers comes to its end *)
Theorem C100_the_loop_ends_in_doubles :
  forall dims (g : grid F64) init goal (ss : list (nat -> usolver F64)) pre,
  problem dims g init goal -> honest g -> Forall ends_in_doubles ss ->
  exists k, forall fuel, (k <= fuel)%nat ->
    exists gs, one_by_one pre (map (fun s => s fuel) ss) init goal g = Ok gs /\
      Forall2 (fun s r => alone (us_s (s fuel)) g init goal r) ss gs.
Proof.
  intros dims g init goal ss pre P Hh Hss.
  assert (K : exists k, forall fuel, (k <= fuel)%nat -> Forall (fun s : nat -> usolver F64 => new_solver_of (s fuel) /\ exists r, alone (us_s (s fuel)) g init goal r) ss).
  { induction Hss as [|s ss Hs Hss [k IH]]; [exists O; constructor|]. destruct (ends_alone dims g init goal P Hh s Hs) as [k1 K1].
    exists (Nat.max k k1). intros fuel Hf. constructor; [apply K1; lia|apply IH; lia]. }
  destruct K as [k K]. exists k. intros fuel Hf. specialize (K fuel Hf).
  assert (Hn : Forall new_solver_of (map (fun s : nat -> usolver F64 => s fuel) ss)) by (apply Forall_map; eapply Forall_impl; [|exact K]; intros s Hs; apply Hs).
  assert (Ha : forall s, In s (map (fun s : nat -> usolver F64 => s fuel) ss) -> exists r, alone (us_s s) g init goal r).
  { intros s Hs. apply in_map_iff in Hs. destruct Hs as [s0 [<- H0]]. rewrite Forall_forall in K. apply (K s0 H0). }
  destruct (C100_the_sequence_ends pre _ init goal g Hh Hn Ha) as [gs Hgs]. exists gs. split; [exact Hgs|].
  pose proof (C100_each_answer_is_the_solvers_own pre _ init goal g gs Hh Hn Hgs) as H. clear - H.
  remember (map (fun s : nat -> usolver F64 => s fuel) ss) as l eqn:El. revert ss El.
  induction H as [|s r l gs Hs H IH]; intros [|s0 ss] El; try discriminate El; constructor.
  - cbn in El. injection El as -> _. exact Hs.
  - cbn in El. injection El as _ El. apply IH. exact El.
Qed.

(** ** cases *)
Definition c100_list (fuel : nat) : list (usolver F64) :=
  [uFMM DaryHeap fuel NOHEUR (str "FMM"); uLSM fuel 1000 (str "LSM"); uDDQM fuel (str "DDQM"); uFMM StdHeap fuel TIME (str "SFMM*"); uFSM fuel 1000 (str "FSM");
   uFIM fuel (z64 1) (str "FIM"); uUFMM fuel 1000 (nofZ 2) (str "UFMM")].
Example C100_case : honest case_grid /\ problem [3;2] case_grid [0] 5 /\ Forall new_solver_of (c100_list 60) /\
  exists gs, one_by_one true (c100_list 60) [0] 5 case_grid = Ok gs /\ List.length gs = 7%nat.
Proof.
  assert (Hf : forall i, 0 <= i < 6 -> free case_grid i).
  { intros i Hi. assert (B : forallb (fun i => match getCell case_grid i with Ok c => negb (isOccupied c) | Fail _ => false end) (zseq 6) = true) by (vm_compute; reflexivity).
    rewrite forallb_forall in B. specialize (B i). destruct (getCell case_grid i) as [c|] eqn:E; [|exfalso; assert (false = true) by (apply B; apply in_zseq; lia); discriminate].
    exists c. split; [exact E|]. apply negb_true_iff. apply B. apply in_zseq. lia. }
  split; [|split; [|split]].
  - intros _ i c Hc. unfold case_grid, vgrid, with_cells, getCell in Hc. cbn [g_cells] in Hc. apply vget_ok in Hc. destruct Hc as [_ Hc].
    apply nth_error_In in Hc. cbn in Hc. repeat (destruct Hc as [<-|Hc]; [cbn; auto|]). destruct Hc.
  - constructor; [split; [repeat (constructor; [lia|]); constructor|cbn; lia]|cbn; lia|repeat (constructor; [lia|]); constructor|apply vgrid_clean; reflexivity|split; [discriminate|intros j [<-|[]]; cbn; lia]| |].
    + intros j E. injection E as <-. apply Hf. lia.
    + right. split; [apply Hf; lia|cbn; lia].
  - repeat constructor.
  - assert (K : match one_by_one true (c100_list 60) [0] 5 case_grid with Ok gs => Z.of_nat (List.length gs) | Fail _ => -1 end = 7) by (vm_compute; reflexivity).
    destruct (one_by_one true (c100_list 60) [0] 5 case_grid) as [gs|]; [|discriminate K]. exists gs. split; [reflexivity|]. lia.
Qed.

(** a map of 7 x 6 x 6 cells for test_fmm3d: line 4 on hold the sizes *)
Definition c100_line (t : text) : text := t ++ [ascii_of_nat 10].
Definition c100_map : text :=
  List.concat (map c100_line [str "FMCell - Fast Marching cell"; str "0.5"; str "3"; str "7"; str "6"; str "6"]) ++
  List.concat (repeat (c100_line (str "1")) 252).
Example C100_fmm3d_case : exists g, loadMapFromText c98_double 3 (Some c100_map) empty_grid = Ok (1, g) /\ grid_ok [7;6;6] g /\ free g (5 + 5 * 7 + 5 * (7 * 6)).
Proof.
  assert (K : match loadMapFromText c98_double 3 (Some c100_map) empty_grid with
    Ok (k, g) => (k =? 1) && (Z.of_nat (List.length (g_cells g)) =? 252) && (if list_eq_dec Z.eq_dec (s_dims (g_sh g)) [7;6;6] then true else false) &&
        (s_n (g_sh g) =? 252) && (if list_eq_dec Z.eq_dec (s_d (g_sh g)) [7;42;252] then true else false) &&
        match getCell g 250 with Ok c => negb (isOccupied c) | _ => false end | _ => false end = true) by (vm_compute; reflexivity).
  destruct (loadMapFromText c98_double 3 (Some c100_map) empty_grid) as [[k g]|]; [|discriminate K]. exists g.
  rewrite !andb_true_iff in K. destruct K as [[[[[A B] C] D] E] F].
  apply Z.eqb_eq in A, B, D. subst k. split; [reflexivity|].
  destruct (list_eq_dec Z.eq_dec (s_dims (g_sh g)) [7;6;6]) as [E1|]; [|discriminate C]. destruct (list_eq_dec Z.eq_dec (s_d (g_sh g)) [7;42;252]) as [E2|]; [|discriminate E].
  split; [split|].
  - destruct (g_sh g) as [a b c]. cbn [s_dims s_d s_n] in *. subst. reflexivity.
  - exact B.
  - destruct (getCell g 250) as [c|] eqn:G; [|discriminate F]. exists c. split; [exact G|]. apply negb_true_iff. exact F.
Qed.

Print Assumptions C100_each_answer_is_the_solvers_own.
Print Assumptions C100_what_each_solver_computes.
Print Assumptions C100_the_sequence_ends.
Print Assumptions C100_explicit_setup_makes_no_difference.
Print Assumptions C100_fmm3d_start.
Print Assumptions C100_fmm3d_no_map.
Print Assumptions C100_fmm3d_answers.
Print Assumptions C100_the_loop_ends_in_doubles.

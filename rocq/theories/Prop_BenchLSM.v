(** Prop_BenchLSM.v - property theorems C113: what a benchmark with a locking sweeping solver
    (or a double dynamic queue) in it still gets right. *)
From Coq Require Import Ascii String Reals Lra.
From Flocq Require Import Core.Core IEEE754.BinarySingleNaN.
From Verif Require Import Base BaseFacts Num NumXR NumF64 NumLaws Grid GridFacts GridUpd Spec Obs Examples Eikonal FMMModel FloatOps HeapLaws HeapRef SweepModel QueueModel
  UntidyModel Frame SolverModel Lifecycle Prop_Heap Prop_Solver Prop_History TextModel TextFacts IOModel IOFacts Prop_IO BenchModel Prop_Bench
  DaryModel FibModel CfgModel FM2Model GDModel PlotModel ExampleModel.
Open Scope Z_scope.
Open Scope list_scope.

(** ** solvers started on a grid whose cells LSM's reset left FROZEN *)
Section R.
Context {N : Num}.
Implicit Types g : grid N.

Lemma clean_after_frozen I g g' : g_clean g = true -> default_cells g -> frame I (setClean (frozen_copy g) false) g' -> clean g' = g.
Proof.
  intros Hc Hd HF. pose proof HF as [F1 [F2 [F3 [F4 _]]]]. cbn in F1, F2, F3, F4.
  unfold clean. rewrite F4. cbn [negb]. rewrite (frame_setDefault _ _ _ HF). cbn [setClean frozen_copy with_cells g_cells].
  rewrite map_map. replace (map (fun x => setDefault (with_state x FROZEN)) (g_cells g)) with (map setDefault (g_cells g)) by (apply map_ext; reflexivity).
  apply default_cells_map in Hd. rewrite Hd. destruct g; cbn in *; congruence.
Qed.

Lemma clean_frozen g : g_clean g = true -> clean (frozen_copy g) = frozen_copy g.
Proof. intros H. unfold clean. cbn [frozen_copy with_cells g_clean]. rewrite H. reflexivity. Qed.

Lemma solver_setup_frozen s g : solver_setup s (frozen_copy g) = (x <- solver_setup s g ;; Ok (fst x, frozen_copy (snd x))).
Proof.
  unfold solver_setup. rewrite sanityChecks_frozen. destruct (sanityChecks s g) as [e|]; cbn [bind]; [|reflexivity].
  destruct (negb (e =? 0)); reflexivity.
Qed.

Lemma fmm_setup_frozen HO (o : fmm_obj HO) g : fmm_setup HO o (frozen_copy g) = (x <- fmm_setup HO o g ;; Ok (fst x, frozen_copy (snd x))).
Proof.
  unfold fmm_setup. rewrite solver_setup_frozen. destruct (solver_setup (fo_s o) g) as [[s1 g1]|e]; cbn [bind fst snd]; [|reflexivity].
  assert (E : fmm_setHeuristics HO (fmm_with_solver HO o s1) (frozen_copy g1) (fo_strat o) = fmm_setHeuristics HO (fmm_with_solver HO o s1) g1 (fo_strat o)) by reflexivity.
  rewrite E. destruct (fmm_setHeuristics HO (fmm_with_solver HO o s1) g1 (fo_strat o)) as [o1|e]; cbn [bind]; [|reflexivity].
  destruct (goal_of s1) as [k|e]; cbn [bind]; [|reflexivity]. destruct (fo_strat o1); try reflexivity; destruct (s32 k =? -1); reflexivity.
Qed.

Theorem fmm_recover HO (o0 o1 : fmm_obj HO) g0 g1 fuel :
  g_clean g0 = true -> default_cells g0 -> sv_setup (fo_s o0) = false -> fo_band o0 = hempty HO ->
  fmm_compute HO fuel o0 (frozen_copy g0) = Ok (o1, g1) ->
  exists o2, fmm_reset HO o1 g1 = Ok (o2, g0) /\ fmm_compute HO fuel o2 g0 = fmm_compute HO fuel o0 g0.
Proof.
  intros Hcl Hd Hs Hb H. unfold fmm_compute in H. rewrite Hs, fmm_setup_frozen in H. apply bind_ok in H. destruct H as [[oa ga] [Ha0 H]].
  apply bind_ok in Ha0. destruct Ha0 as [[oa' gb] [Ha Ha0]]. injection Ha0 as <- <-. cbn [fst snd] in H.
  destruct (fmm_setup_cases _ _ _ _ _ Ha) as [s1 [k [H1 [Hk Hc]]]].
  pose proof (solver_setup_ok _ _ _ _ H1) as [Es1 [Eg1 [Egr _]]].
  assert (Eoa : fo_s oa' = s1 /\ fo_band oa' = hempty HO).
  { rewrite <- Hb. destruct Hc as [[_ ->]|[[_ [_ ->]]|[_ [_ [gc [d [_ [_ ->]]]]]]]]; cbn; auto. }
  destruct Eoa as [Eoa Eband]. rewrite Eoa, Hk in H. cbn [bind] in H. apply bind_ok in H. destruct H as [[st log] [Hr H]].
  injection H as <- <-.
  pose proof (fmm_run_frame (fun i => In i (sv_init s1)) HO _ _ _ _ _ _ _ _ (fun i Hi => Hi) Hr) as HF. rewrite Eg1 in HF.
  change (frozen_copy (setClean g0 false)) with (setClean (frozen_copy g0) false) in HF.
  unfold fmm_reset, solver_reset. cbn [fo_s]. assert (Eg : sv_grid s1 = GSet) by (rewrite Es1; exact Egr). rewrite ?Eoa, Eg. cbn [bind].
  rewrite (clean_after_frozen _ _ _ Hcl Hd HF). eexists. split; [reflexivity|].
  cbn [fo_s fo_strat fo_dist fo_pre fo_coord]. unfold fmm_compute. cbn [fo_s sv_setup]. rewrite Hs, Ha.
  pose proof (fmm_setup_again _ _ _ _ _ false (hempty HO) Ha) as HA. rewrite Eoa, Eg in HA.
  rewrite HA. cbn [bind fo_s fo_strat fo_dist fo_pre fo_coord fo_band]. rewrite Eoa, Eband. reflexivity.
Qed.

Theorem fsm_recover (o0 o1 : fsm_obj) g0 g1 fuel :
  g_clean g0 = true -> default_cells g0 -> sv_setup (so_s o0) = false -> so_sweeps o0 = 0 ->
  fsm_compute fuel o0 (frozen_copy g0) = Ok (o1, g1) ->
  exists o2, fsm_reset o1 g1 = Ok (o2, g0) /\ fsm_compute fuel o2 g0 = fsm_compute fuel o0 g0.
Proof.
  intros Hcl Hd Hs Hsw H. unfold fsm_compute, sweep_compute in H. rewrite Hs in H. apply bind_ok in H. destruct H as [[oa ga] [Ha H]].
  unfold fsm_setup in Ha. rewrite solver_setup_frozen in Ha. apply bind_ok in Ha. destruct Ha as [[s1 gb] [H0 Ha]]. injection Ha as <- <-.
  apply bind_ok in H0. destruct H0 as [[s1' gb'] [H1 H0]]. cbn [fst snd] in H0. injection H0 as <- <-.
  cbn [so_s so_max so_sweeps so_incs so_dims] in H. apply bind_ok in H. destruct H as [k [Hk H]].
  apply bind_ok in H. destruct H as [[[st sw] incs] [Hr H]]. injection H as <- <-.
  pose proof (solver_setup_ok _ _ _ _ H1) as [Es1 [Eg1 [Egr _]]]. assert (Eg : sv_grid s1' = GSet) by (rewrite Es1; exact Egr).
  pose proof (fsm_run_frame (fun i => In i (sv_init s1')) _ _ _ _ _ _ _ _ (fun i Hi => Hi) Hr) as HF. rewrite Eg1 in HF. cbn [fst] in HF.
  change (frozen_copy (setClean g0 false)) with (setClean (frozen_copy g0) false) in HF.
  unfold fsm_reset, solver_reset. cbn [so_s]. rewrite Eg. cbn [bind]. rewrite (clean_after_frozen _ _ _ Hcl Hd HF).
  eexists. split; [reflexivity|]. cbn [so_max so_dims]. unfold fsm_compute, sweep_compute, fsm_setup. cbn [so_s sv_setup so_sweeps so_max so_incs so_dims].
  pose proof (solver_setup_again _ _ _ _ false H1) as HA. rewrite <- Eg, Es1. cbn [sv_grid sv_init sv_goal]. rewrite HA, Hs, H1. cbn [bind so_s so_max so_sweeps so_incs so_dims].
  rewrite Hsw. reflexivity.
Qed.

Theorem fim_recover (o0 o1 : fim_obj (N := N)) g0 g1 fuel :
  g_clean g0 = true -> default_cells g0 -> sv_setup (io_s o0) = false -> io_list o0 = [] ->
  fim_compute fuel o0 (frozen_copy g0) = Ok (o1, g1) ->
  exists o2, fim_reset o1 g1 = Ok (o2, g0) /\ fim_compute fuel o2 g0 = fim_compute fuel o0 g0.
Proof.
  intros Hcl Hd Hs Hl H. unfold fim_compute, ensure_setup in H. rewrite Hs, Hl, solver_setup_frozen in H. apply bind_ok in H. destruct H as [[s1 gb] [H0 H]].
  apply bind_ok in H0. destruct H0 as [[s1' gb'] [H1 H0]]. cbn [fst snd] in H0. injection H0 as <- <-.
  apply bind_ok in H. destruct H as [k [Hk H]]. apply bind_ok in H. destruct H as [[[g2 l] ub] [Hr H]]. injection H as <- <-.
  pose proof (solver_setup_ok _ _ _ _ H1) as [Es1 [Eg1 [Egr _]]]. assert (Eg : sv_grid s1' = GSet) by (rewrite Es1; exact Egr).
  pose proof (fim_run_frame (fun i => In i (sv_init s1')) _ _ _ _ _ _ (fun i Hi => Hi) Hr) as HF. rewrite Eg1 in HF. cbn [fst] in HF.
  change (frozen_copy (setClean g0 false)) with (setClean (frozen_copy g0) false) in HF.
  unfold fim_reset, solver_reset. cbn [io_s]. rewrite Eg. cbn [bind]. rewrite (clean_after_frozen _ _ _ Hcl Hd HF).
  eexists. split; [reflexivity|]. unfold fim_compute, ensure_setup. cbn [io_s io_list io_E sv_setup].
  pose proof (solver_setup_again _ _ _ _ false H1) as HA. rewrite <- Eg, Es1. cbn [sv_grid sv_init sv_goal]. rewrite HA, Hs, H1, Hl. reflexivity.
Qed.

Theorem gmm_recover (o0 o1 : gmm_obj (N := N)) g0 g1 fuel :
  g_clean g0 = true -> default_cells g0 -> sv_setup (go_s o0) = false -> go_gamma o0 = [] ->
  gmm_compute fuel o0 (frozen_copy g0) = Ok (o1, g1) ->
  exists o2, gmm_reset o1 g1 = Ok (o2, g0) /\ gmm_compute fuel o2 g0 = gmm_compute fuel o0 g0.
Proof.
  intros Hcl Hd Hs Hl H. unfold gmm_compute in H. rewrite Hs in H. apply bind_ok in H. destruct H as [[oa ga] [Ha H]].
  unfold gmm_setup in Ha. rewrite solver_setup_frozen in Ha. apply bind_ok in Ha. destruct Ha as [[s1 gb] [H0 Ha]]. injection Ha as <- <-.
  apply bind_ok in H0. destruct H0 as [[s1' gb'] [H1 H0]]. cbn [fst snd] in H0. injection H0 as <- <-.
  cbn [go_s go_dt go_gamma] in H. rewrite Hl in H.
  apply bind_ok in H. destruct H as [k [Hk H]]. apply bind_ok in H. destruct H as [r [Hr H]]. injection H as <- <-.
  pose proof (solver_setup_ok _ _ _ _ H1) as [Es1 [Eg1 [Egr _]]]. assert (Eg : sv_grid s1' = GSet) by (rewrite Es1; exact Egr).
  pose proof (gmm_run_frame (fun i => In i (sv_init s1')) _ _ _ _ _ _ (fun i Hi => Hi) Hr) as HF. rewrite Eg1 in HF.
  change (frozen_copy (setClean g0 false)) with (setClean (frozen_copy g0) false) in HF.
  unfold gmm_reset, solver_reset. cbn [go_s]. rewrite Eg. cbn [bind]. rewrite (clean_after_frozen _ _ _ Hcl Hd HF).
  eexists. split; [reflexivity|]. unfold gmm_compute, gmm_setup. cbn [go_s go_dt go_gamma sv_setup].
  pose proof (solver_setup_again _ _ _ _ false H1) as HA. rewrite <- Eg, Es1. cbn [sv_grid sv_init sv_goal]. rewrite HA, Hs, H1, Hl. cbn [bind go_s go_dt go_gamma].
  assert (Est : gmm_setup_dt (go_dt o0) (frozen_copy gb') = gmm_setup_dt (go_dt o0) gb').
  { unfold gmm_setup_dt. destruct (nltb (go_dt o0) n0); [|reflexivity]. f_equal.
    unfold getMaxSpeed. cbn [frozen_copy with_cells g_cells]. generalize (n0 : N). induction (g_cells gb') as [|c l IH]; intros m; cbn [map fold_left]; [reflexivity|]. apply IH. }
  rewrite Est.
  assert (Edt : gmm_setup_dt (gmm_setup_dt (go_dt o0) gb') gb' = gmm_setup_dt (go_dt o0) gb').
  { unfold gmm_setup_dt at 1. destruct (nltb (gmm_setup_dt (go_dt o0) gb') n0) eqn:E1; [|reflexivity].
    unfold gmm_setup_dt in *. destruct (nltb (go_dt o0) n0) eqn:E2; [reflexivity|congruence]. }
  rewrite Edt. reflexivity.
Qed.

Theorem ufmm_recover size inc (o0 o1 : ufmm_obj (N := N)) g0 g1 fuel :
  g_clean g0 = true -> default_cells g0 -> sv_setup (uo_s o0) = false -> uo_q o0 = uq_new size inc ->
  ufmm_compute fuel o0 (frozen_copy g0) = Ok (o1, g1) ->
  exists o2, ufmm_reset o1 g1 = Ok (o2, g0) /\ ufmm_compute fuel o2 g0 = ufmm_compute fuel o0 g0.
Proof.
  intros Hcl Hd Hs Hq H. unfold ufmm_compute, ensure_setup in H. rewrite Hs, Hq, solver_setup_frozen in H. apply bind_ok in H. destruct H as [[s1 gb] [H0 H]].
  apply bind_ok in H0. destruct H0 as [[s1' gb'] [H1 H0]]. cbn [fst snd] in H0. injection H0 as <- <-.
  apply bind_ok in H. destruct H as [k [Hk H]]. apply bind_ok in H. destruct H as [[st log] [Hr H]]. injection H as <- <-.
  pose proof (solver_setup_ok _ _ _ _ H1) as [Es1 [Eg1 [Egr _]]]. assert (Eg : sv_grid s1' = GSet) by (rewrite Es1; exact Egr).
  pose proof (ufmm_run_frame (fun i => In i (sv_init s1')) _ _ _ _ _ _ (fun i Hi => Hi) Hr) as HF. rewrite Eg1 in HF. cbn [fst] in HF.
  change (frozen_copy (setClean g0 false)) with (setClean (frozen_copy g0) false) in HF.
  pose proof (ufmm_run_same _ _ _ _ _ _ _ Hr) as [Q1 [Q2 [Q3 Q4]]]. cbn in Q1, Q2, Q3, Q4.
  assert (EQ : uq_clear (uf_q st) = uq_new size inc).
  { unfold uq_clear, uq_new. rewrite Q2, Q3, Q4. f_equal. rewrite repeat_length in Q1. rewrite <- Q1.
    generalize (uq_tab (uf_q st)) as l. induction l; cbn; congruence. }
  unfold ufmm_reset, solver_reset. cbn [uo_s]. rewrite Eg. cbn [bind]. rewrite (clean_after_frozen _ _ _ Hcl Hd HF).
  eexists. split; [reflexivity|]. cbn [uo_q]. rewrite EQ. unfold ufmm_compute, ensure_setup. cbn [uo_s uo_q sv_setup].
  pose proof (solver_setup_again _ _ _ _ false H1) as HA. rewrite <- Eg, Es1. cbn [sv_grid sv_init sv_goal]. rewrite HA, Hs, H1, Hq. reflexivity.
Qed.

(** DDQM freezes every cell before it starts *)
Lemma ddqm_compute_frozen dims fuel (o : ddqm_obj (N := N)) g : proper dims -> box_size dims < 4294967296 -> grid_ok dims g -> sv_setup (do_s o) = false ->
  ddqm_compute fuel o (frozen_copy g) = ddqm_compute fuel o g.
Proof.
  intros Hp Hlt Hg Hs. unfold ddqm_compute, ensure_setup. rewrite Hs. unfold solver_setup. rewrite sanityChecks_frozen.
  destruct (sanityChecks (do_s o) g) as [e|]; cbn [bind]; [|reflexivity]. destruct (negb (e =? 0)); cbn [bind]; [reflexivity|].
  destruct (goal_of _) as [k|]; cbn [bind]; [|reflexivity]. destruct (do_th o), (do_step o); try reflexivity.
  f_equal. unfold ddqm_resume. rewrite (freeze_all_eq dims (setClean g false) Hp Hlt) by (destruct Hg; split; assumption).
  rewrite (freeze_all_eq dims (setClean (frozen_copy g) false) Hp Hlt).
  2:{ destruct Hg as [G1 G2]. split; [exact G1|]. cbn. rewrite map_length. exact G2. }
  rewrite frozen_twice. reflexivity.
Qed.

Lemma ddqm_step_frozen g : ddqm_reset_step (frozen_copy g) = ddqm_reset_step g.
Proof.
  unfold ddqm_reset_step. do 2 f_equal. f_equal. unfold getAvgSpeed. cbn [frozen_copy with_cells g_cells g_sh].
  assert (E : forall l a, fold_left (fun '(s, k) (c : cell N) => if negb (isOccupied c) then (nadd s (c_occ c), k) else (s, (k + 1)%Z)) (map (fun c => with_state c FROZEN) l) a
    = fold_left (fun '(s, k) c => if negb (isOccupied c) then (nadd s (c_occ c), k) else (s, (k + 1)%Z)) l a).
  { induction l as [|c l IH]; intros [s k]; cbn [map fold_left]; [reflexivity|]. apply IH. }
  rewrite E. reflexivity.
Qed.

Theorem ddqm_reset_compute (o0 o1 : ddqm_obj (N := N)) g0 g1 fuel :
  g_clean g0 = true -> default_cells g0 -> sv_setup (do_s o0) = false -> do_q0 o0 = [] -> do_q1 o0 = [] ->
  do_th o0 = Some (ddqm_reset_step g0) -> do_step o0 = Some (ddqm_reset_step g0) ->
  ddqm_compute fuel o0 g0 = Ok (o1, g1) ->
  exists o2, ddqm_reset o1 g1 = Ok (o2, g0) /\ ddqm_compute fuel o2 g0 = Ok (o1, g1).
Proof.
  intros Hcl Hd Hs Hq0 Hq1 Ht Hst H. unfold ddqm_compute, ensure_setup in H. rewrite Hs, Hq0, Hq1, Ht, Hst in H. apply bind_ok in H. destruct H as [[s1 gb] [H1 H]].
  apply bind_ok in H. destruct H as [k [Hk H]]. apply bind_ok in H. destruct H as [[[r q0] q1] [Hr H]]. injection H as <- <-.
  pose proof (solver_setup_ok _ _ _ _ H1) as [Es1 [Eg1 [Egr _]]]. assert (Eg : sv_grid s1 = GSet) by (rewrite Es1; exact Egr).
  pose proof (ddqm_run_frame (fun i => In i (sv_init s1)) _ _ _ _ _ _ _ (fun i Hi => Hi) (ddqm_resume_run _ _ _ _ _ _ _ _ _ Hr)) as HF. rewrite Eg1 in HF.
  unfold ddqm_reset, solver_reset. cbn [do_s]. rewrite Eg. cbn [bind]. rewrite (clean_after _ _ _ Hcl Hd HF).
  eexists. split; [reflexivity|]. unfold ddqm_compute, ensure_setup. cbn [do_s do_th do_step do_q0 do_q1 sv_setup].
  pose proof (solver_setup_again _ _ _ _ false H1) as HA. rewrite <- Eg, Es1. cbn [sv_grid sv_init sv_goal]. rewrite HA. cbn [bind].
  rewrite Hk. cbn [bind]. rewrite Hr. cbn [bind]. rewrite Es1. reflexivity.
Qed.
End R.

(** ** the solvers of the library in a benchmark *)
Section B.
Context {N : Num}.
Context (showD : N -> text) (timeOf : Z -> text).
Notation runs := (BenchModel.runs showD timeOf).
Notation run_solvers := (BenchModel.run_solvers showD timeOf).
Notation bench_run := (BenchModel.bench_run showD timeOf).

(** a newly made solver of the library: LSM, DDQM, or one of the others *)
Inductive role := Locking | DoubleQueue | Other.
Inductive lib_solver : bsolver N -> role -> Prop :=
| new_fmm HO fuel h nm : lib_solver (mkBS (cFMM HO fuel) (fmm_new HO h) nm) Other
| new_fsm fuel m nm : lib_solver (mkBS (cFSM fuel) (fsm_new m) nm) Other
| new_fim fuel E nm : lib_solver (mkBS (cFIM fuel) (fim_new E) nm) Other
| new_gmm fuel dt nm : lib_solver (mkBS (cGMM fuel) (gmm_new dt) nm) Other
| new_ufmm fuel size inc nm : lib_solver (mkBS (cUFMM fuel) (ufmm_new size inc) nm) Other
| new_lsm fuel m nm : lib_solver (mkBS (cLSM fuel) (fsm_new m) nm) Locking
| new_ddqm fuel nm : lib_solver (mkBS (cDDQM fuel) ddqm_new nm) DoubleQueue.

(** run number k (from 0), when every solver does n runs, is the first run of a solver that is
    neither LSM nor DDQM and comes right after an LSM *)
Definition after_lsm (kinds : list role) (n k : nat) : Prop :=
  exists p, k = (S p * n)%nat /\ nth_error kinds p = Some Locking /\ nth_error kinds (S p) = Some Other.

Definition freezes (k : role) : bool := match k with Locking => true | _ => false end.
Definition shy (k : role) : bool := match k with Other => true | _ => false end.
Definition home k (gc : grid N) := if freezes k then frozen_copy gc else gc.
Definition started (fz : bool) (gc : grid N) := if fz then frozen_copy gc else gc.

(** what is needed of object [o] configured for the clean map [gc] *)
Definition manners (c : sclass N) (o : sc_obj c) (k : role) (gc : grid N) : Prop :=
  (forall fz, fz && shy k = false -> exists ob gb, sc_reset c o (started fz gc) = Ok (ob, gb) /\ sc_compute c ob gb = sc_compute c o gc) /\
  (forall o1 r, sc_compute c o gc = Ok (o1, r) -> exists o2, sc_reset c o1 r = Ok (o2, home k gc) /\ sc_compute c o2 (home k gc) = Ok (o1, r)) /\
  (forall ob gb o1 g1, sc_reset c o (frozen_copy gc) = Ok (ob, gb) -> sc_compute c ob gb = Ok (o1, g1) -> shy k = true ->
     exists o2, sc_reset c o1 g1 = Ok (o2, gc) /\ sc_compute c o2 gc = sc_compute c o gc).

Definition mannered (s : bsolver N) (k : role) (g : grid N) : Prop :=
  forall init goal, exists o,
    sc_env (bs_class s) (bs_obj s) (Some g) = Ok (o, clean g) /\ sc_env (bs_class s) (bs_obj s) (Some (clean g)) = Ok (o, clean g) /\
    manners (bs_class s) (sc_points (bs_class s) o init goal) k (clean g).

Lemma runs_steady : forall n sg name c (ox : sc_obj c) gx oy gm oc r oz gm2 id log files o' g' id' log' files',
  sc_reset c ox gx = Ok (oy, gm) -> sc_compute c oy gm = Ok (oc, r) ->
  sc_reset c oc r = Ok (oz, gm2) -> sc_compute c oz gm2 = Ok (oc, r) ->
  runs n sg name c ox gx id log files = Ok (o', g', id', log', files') -> 0 <= id -> id + Z.of_nat n < 4294967296 ->
  (n <> O -> o' = oc /\ g' = r) /\
  (sg = 2 -> exists t, (n <> O -> saveGridValues showD r = Ok t) /\ files' = files ++ map (fun k => (grid_file (formatID (id + 1 + Z.of_nat k)), t)) (seq 0 n)) /\
  (sg <> 2 -> files' = files).
Proof.
  induction n as [|n IH]; intros sg name c ox gx oy gm oc r oz gm2 id log files o' g' id' log' files' Hr1 Hc1 Hr2 Hc2 H H0 Hn.
  - cbn [BenchModel.runs] in H. injection H as <- <- <- <- <-. split; [lia|]. split; [|auto]. intros _. exists []. split; [lia|]. cbn. rewrite app_nil_r. reflexivity.
  - cbn [BenchModel.runs] in H. assert (Eid : u32 (id + 1) = id + 1) by (unfold u32; apply Z.mod_small; lia). rewrite Eid, Hr1 in H. cbn [bind] in H. rewrite Hc1 in H. cbn [bind] in H.
    apply bind_ok in H. destruct H as [fs [Hfs K]].
    destruct (IH sg name c oc r oz gm2 oc r oz gm2 _ _ _ _ _ _ _ _ Hr2 Hc2 Hr2 Hc2 K ltac:(lia) ltac:(lia)) as [I1 [I2 I3]].
    split.
    { intros _. destruct n; [cbn [BenchModel.runs] in K; inversion K; auto|]. apply I1. lia. }
    split.
    + intros ->. cbn [Z.eqb Pos.eqb] in Hfs. apply bind_ok in Hfs. destruct Hfs as [t [Ht Hfs]]. injection Hfs as <-.
      destruct (I2 eq_refl) as [t' [Ht' ->]]. exists t. split; [auto|]. cbn [seq map]. rewrite <- app_assoc. cbn [app]. rewrite Z.add_0_r. do 2 f_equal.
      rewrite <- seq_shift, map_map. destruct n; [reflexivity|]. specialize (Ht' ltac:(lia)). assert (t' = t) by congruence. subst t'.
      apply map_ext. intros k. do 3 f_equal. lia.
    + intros Hsg. destruct (Z.eqb_spec sg 2); [contradiction|]. injection Hfs as <-. auto.
Qed.

Lemma nth_run_files id (t : text) n j (nm u : text) : nth_error (map (fun k => (grid_file (formatID (id + 1 + Z.of_nat k)), t)) (seq 0 n)) j = Some (nm, u) ->
  nm = formatID (id + 1 + Z.of_nat j) ++ str ".grid" /\ u = t /\ (j < n)%nat.
Proof.
  intros H. assert (Hj : (j < n)%nat) by (assert (nth_error (map (fun k => (grid_file (formatID (id + 1 + Z.of_nat k)), t)) (seq 0 n)) j <> None) as K by congruence; apply nth_error_Some in K; rewrite map_length, seq_length in K; exact K).
  rewrite nth_error_map in H. rewrite (nth_error_nth' _ O) in H by (rewrite seq_length; lia). rewrite seq_nth in H by lia. cbn in H. injection H as <- <-.
  split; [apply formatID_file|auto].
Qed.

(** one solver: [fz] says that it starts on a frozen map *)
Lemma runs_block : forall n sg name c (o : sc_obj c) k gc fz id log files o' g' id' log' files',
  manners c o k gc -> runs n sg name c o (started fz gc) id log files = Ok (o', g', id', log', files') -> n <> O -> 0 <= id -> id + Z.of_nat n < 4294967296 ->
  (exists o2, sc_reset c o' g' = Ok (o2, home k gc)) /\
  (sg = 2 -> exists fl, files' = files ++ fl /\ List.length fl = n /\
     forall j nm t, nth_error fl j = Some (nm, t) -> nm = formatID (id + 1 + Z.of_nat j) ++ str ".grid" /\
       ((j = O /\ fz && shy k = true) \/ exists oc r, sc_compute c o gc = Ok (oc, r) /\ saveGridValues showD r = Ok t)) /\
  (sg <> 2 -> files' = files) /\
  ((n = 1%nat /\ fz && shy k = true) \/ exists oc, sc_compute c o gc = Ok (oc, g')).
Proof.
  intros n sg name c o k gc fz id log files o' g' id' log' files' [M1 [M2 M3]] H Hn H0 Hlt.
  destruct (fz && shy k) eqn:Efz.
  - apply andb_prop in Efz. destruct Efz as [-> Es]. cbn [started] in H. assert (Eh : home k gc = gc) by (unfold home; destruct k; try discriminate Es; reflexivity).
    destruct n as [|n]; [contradiction|]. cbn [BenchModel.runs] in H. assert (Eid : u32 (id + 1) = id + 1) by (unfold u32; apply Z.mod_small; lia). rewrite Eid in H.
    apply bind_ok in H. destruct H as [[ob gb] [Hr H]]. apply bind_ok in H. destruct H as [[o1 g1] [Hc H]]. apply bind_ok in H. destruct H as [fs [Hfs H]].
    destruct (M3 _ _ _ _ Hr Hc Es) as [o2 [Hr2 Hc2]]. rewrite Eh in *.
    destruct n as [|n].
    + cbn [BenchModel.runs] in H. injection H as <- <- <- <- <-. split; [eauto|]. split; [|split; [|left; auto]].
      * intros ->. cbn [Z.eqb Pos.eqb] in Hfs. apply bind_ok in Hfs. destruct Hfs as [t [Ht Hfs]]. injection Hfs as <-. exists [(grid_file (formatID (id + 1)), t)]. split; [reflexivity|]. split; [reflexivity|].
        intros [|[|j]] nm u Hj; cbn in Hj; [|discriminate Hj|discriminate Hj]. injection Hj as <- <-. rewrite Z.add_0_r. split; [apply formatID_file|]. left. auto.
      * intros Hsg. destruct (Z.eqb_spec sg 2); [contradiction|]. injection Hfs as <-. reflexivity.
    + assert (Hcc : exists oc r, sc_compute c o gc = Ok (oc, r)).
      { pose proof H as K. cbn [BenchModel.runs] in K. rewrite Hr2 in K. cbn [bind] in K. apply bind_ok in K. destruct K as [[oc r] [K _]]. exists oc, r. congruence. }
      destruct Hcc as [oc [r Hoc]]. destruct (M2 _ _ Hoc) as [oz [Hrz Hcz]].
      destruct (runs_steady _ _ _ _ _ _ _ _ _ _ _ _ _ _ _ _ _ _ _ _ Hr2 (eq_trans Hc2 Hoc) Hrz Hcz H ltac:(lia) ltac:(lia)) as [I1 [I2 I3]].
      destruct (I1 ltac:(lia)) as [-> ->]. split; [eauto|]. split; [|split; [|right; eauto]].
      * intros ->. cbn [Z.eqb Pos.eqb] in Hfs. apply bind_ok in Hfs. destruct Hfs as [t [Ht Hfs]]. injection Hfs as <-.
        destruct (I2 eq_refl) as [t' [Ht' ->]]. eexists. split; [rewrite <- app_assoc; reflexivity|]. split; [cbn [app List.length]; rewrite map_length, seq_length; reflexivity|].
        intros [|j] nm u Hj; cbn [app nth_error] in Hj.
        -- injection Hj as <- <-. rewrite Z.add_0_r. split; [apply formatID_file|]. left. auto.
        -- apply nth_run_files in Hj. destruct Hj as [-> [-> _]]. split; [do 2 f_equal; lia|]. right. exists oc, r. split; [exact Hoc|apply Ht'; lia].
      * intros Hsg. rewrite (I3 Hsg). destruct (Z.eqb_spec sg 2); [contradiction|]. injection Hfs as <-. reflexivity.
  - destruct (M1 fz Efz) as [ob [gb [Hr Hc]]].
    assert (Hcc : exists oc r, sc_compute c o gc = Ok (oc, r)).
    { destruct n as [|n]; [contradiction|]. pose proof H as K. cbn [BenchModel.runs] in K. rewrite Hr in K. cbn [bind] in K. apply bind_ok in K. destruct K as [[oc r] [K _]]. exists oc, r. congruence. }
    destruct Hcc as [oc [r Hoc]]. destruct (M2 _ _ Hoc) as [oz [Hrz Hcz]].
    destruct (runs_steady _ _ _ _ _ _ _ _ _ _ _ _ _ _ _ _ _ _ _ _ Hr (eq_trans Hc Hoc) Hrz Hcz H H0 Hlt) as [I1 [I2 I3]].
    destruct (I1 Hn) as [-> ->]. split; [eauto|]. split; [|split; [exact I3|right; eauto]].
    intros ->. destruct (I2 eq_refl) as [t [Ht ->]]. eexists. split; [reflexivity|]. split; [rewrite map_length, seq_length; reflexivity|].
    intros j nm u Hj. apply nth_run_files in Hj. destruct Hj as [-> [-> _]]. split; [reflexivity|]. right. exists oc, r. auto.
Qed.

(** every kind of solver behaves as [mannered] asks, on a map that fits the index type *)
Lemma lib_mannered s k g : lib_solver s k -> fits g -> (k = DoubleQueue -> ddqm_env_step (clean g) = ddqm_reset_step (clean g)) -> mannered s k g.
Proof.
  intros Hm Hf Hd. pose proof (proj1 Hf) as Hh. destruct (clean_fits g Hf) as [dims [Hp [Hlt Hok]]]. pose proof (clean_flag g) as Hcl. pose proof (clean_default g Hh) as Hdf.
  destruct Hm as [HO fuel h nm|fuel m nm|fuel E nm|fuel dt nm|fuel size inc nm|fuel m nm|fuel nm]; intros init goal.
  - eexists. split; [reflexivity|]. split; [cbn; rewrite clean_clean; reflexivity|]. split; [|split].
    + intros fz Hz. destruct fz; [discriminate Hz|]. cbn. unfold fmm_reset, solver_reset. cbn. rewrite clean_clean. do 2 eexists. split; reflexivity.
    + intros o1 r. cbn. apply fmm_reset_compute; auto.
    + intros ob gb o1 g1 Hr Hc _. cbn in Hr, Hc |- *. unfold fmm_reset, solver_reset in Hr. cbn in Hr. rewrite (clean_frozen _ Hcl) in Hr. injection Hr as <- <-.
      refine (fmm_recover HO _ _ _ _ _ Hcl Hdf _ _ Hc); reflexivity.
  - eexists. split; [reflexivity|]. split; [cbn; rewrite clean_clean; reflexivity|]. split; [|split].
    + intros fz Hz. destruct fz; [discriminate Hz|]. cbn. unfold fsm_reset, solver_reset. cbn. rewrite clean_clean. do 2 eexists. split; reflexivity.
    + intros o1 r. cbn. apply fsm_reset_compute; auto.
    + intros ob gb o1 g1 Hr Hc _. cbn in Hr, Hc |- *. unfold fsm_reset, solver_reset in Hr. cbn in Hr. rewrite (clean_frozen _ Hcl) in Hr. injection Hr as <- <-.
      match type of Hc with fsm_compute _ ?o0 _ = _ => destruct (fsm_recover o0 o1 _ g1 _ Hcl Hdf eq_refl eq_refl Hc) as [o2 [A B]] end. exists o2. split; [exact A|]. rewrite B. reflexivity.
  - eexists. split; [reflexivity|]. split; [cbn; rewrite clean_clean; reflexivity|]. split; [|split].
    + intros fz Hz. destruct fz; [discriminate Hz|]. cbn. unfold fim_reset, solver_reset. cbn. rewrite clean_clean. do 2 eexists. split; reflexivity.
    + intros o1 r. cbn. apply fim_reset_compute; auto.
    + intros ob gb o1 g1 Hr Hc _. cbn in Hr, Hc |- *. unfold fim_reset, solver_reset in Hr. cbn in Hr. rewrite (clean_frozen _ Hcl) in Hr. injection Hr as <- <-.
      refine (fim_recover _ _ _ _ _ Hcl Hdf _ _ Hc); reflexivity.
  - eexists. split; [reflexivity|]. split; [cbn; rewrite clean_clean; reflexivity|]. split; [|split].
    + intros fz Hz. destruct fz; [discriminate Hz|]. cbn. unfold gmm_reset, solver_reset. cbn. rewrite clean_clean. do 2 eexists. split; reflexivity.
    + intros o1 r. cbn. apply gmm_reset_compute; auto.
    + intros ob gb o1 g1 Hr Hc _. cbn in Hr, Hc |- *. unfold gmm_reset, solver_reset in Hr. cbn in Hr. rewrite (clean_frozen _ Hcl) in Hr. injection Hr as <- <-.
      refine (gmm_recover _ _ _ _ _ Hcl Hdf _ _ Hc); reflexivity.
  - assert (Eq : uq_clear (uq_new size inc) = uq_new size inc).
    { unfold uq_clear, uq_new. cbn. f_equal. generalize (Z.to_nat size) as q. induction q; cbn; congruence. }
    eexists. split; [reflexivity|]. split; [cbn; rewrite clean_clean; reflexivity|]. split; [|split].
    + intros fz Hz. destruct fz; [discriminate Hz|]. cbn. unfold ufmm_reset, solver_reset. cbn. rewrite clean_clean. do 2 eexists. split; [reflexivity|].
      unfold ufmm_setPoints. cbn. rewrite Eq. reflexivity.
    + intros o1 r. cbn. apply (ufmm_reset_compute size inc); auto.
    + intros ob gb o1 g1 Hr Hc _. cbn in Hr, Hc |- *. unfold ufmm_reset, solver_reset in Hr. cbn in Hr. rewrite (clean_frozen _ Hcl), Eq in Hr. injection Hr as <- <-.
      refine (ufmm_recover size inc _ _ _ _ _ Hcl Hdf _ _ Hc); reflexivity.
  - eexists. split; [reflexivity|]. split; [cbn; rewrite clean_clean; reflexivity|]. split; [|split].
    + intros fz _. cbn. unfold lsm_reset, fsm_reset, solver_reset. cbn.
      assert (Es : clean (started fz (clean g)) = started fz (clean g)) by (destruct fz; [apply clean_frozen; auto|apply clean_clean]). rewrite Es.
      assert (Ea : freeze_all (started fz (clean g)) = Ok (frozen_copy (clean g))).
      { destruct fz; cbn [started]; [|apply (freeze_all_eq dims); auto]. rewrite (freeze_all_eq dims); [|auto|auto|destruct Hok as [G1 G2]; split; [exact G1|cbn; rewrite map_length; exact G2]].
        f_equal. unfold frozen_copy, with_cells. cbn. rewrite map_map. f_equal. }
      rewrite Ea. cbn [bind]. do 2 eexists. split; [reflexivity|]. rewrite (lsm_compute_frozen dims) by auto. reflexivity.
    + intros o1 r Hc. cbn in Hc |- *. refine (lsm_reset_compute dims _ _ _ _ _ Hp Hlt Hok Hcl Hdf _ _ Hc); reflexivity.
    + intros ob gb o1 g1 _ _ Hs. discriminate Hs.
  - specialize (Hd eq_refl). eexists. split; [reflexivity|]. split; [cbn; unfold ddqm_setEnvironment; cbn; rewrite clean_clean; reflexivity|]. split; [|split].
    + intros fz _. cbn. unfold ddqm_reset, solver_reset. cbn.
      assert (Es : clean (started fz (clean g)) = started fz (clean g)) by (destruct fz; [apply clean_frozen; auto|apply clean_clean]). rewrite Es.
      do 2 eexists. split; [reflexivity|]. unfold ddqm_setPoints. cbn. rewrite Hd.
      destruct fz; cbn [started]; [rewrite ddqm_step_frozen, (ddqm_compute_frozen dims) by auto|]; reflexivity.
    + intros o1 r Hc. cbn in Hc |- *. refine (ddqm_reset_compute _ _ _ _ _ Hcl Hdf _ _ _ _ _ Hc); cbn; rewrite ?Hd; reflexivity.
    + intros ob gb o1 g1 _ _ Hs. discriminate Hs.
Qed.

Definition configured (g : grid N) (init : list Z) (goal : Z) (s : bsolver N) (k : role) (s' : bsolver N) : Prop :=
  bs_name s' = bs_name s /\ manners (bs_class s') (bs_obj s') k (clean g) /\
  (forall o1 r, sc_compute (bs_class s') (bs_obj s') (clean g) = Ok (o1, r) -> alone s g init goal r).

Inductive all3 (g : grid N) (init : list Z) (goal : Z) : list (bsolver N) -> list role -> list (bsolver N) -> Prop :=
| all3_nil : all3 g init goal [] [] []
| all3_cons s k s' l ks l' : configured g init goal s k s' -> all3 g init goal l ks l' -> all3 g init goal (s :: l) (k :: ks) (s' :: l').

Lemma config_mannered : forall l ks g init goal gx, Forall2 (fun s k => mannered s k g) l ks -> gx = g \/ gx = clean g ->
  exists l', configSolvers l init goal gx = Ok (l', match l with [] => gx | _ => clean g end) /\ all3 g init goal l ks l'.
Proof.
  intros l ks g init goal gx H. revert gx. induction H as [|s k l ks Hs Hl IH]; intros gx Hx; cbn [configSolvers]; [exists []; split; [auto|constructor]|].
  destruct (Hs init goal) as [o [E1 [E2 Hm]]].
  assert (E : sc_env (bs_class s) (bs_obj s) (Some gx) = Ok (o, clean g)) by (destruct Hx as [->| ->]; auto).
  rewrite E. cbn [bind]. destruct (IH (clean g) (or_intror eq_refl)) as [l' [El' Hr]]. rewrite El'. cbn [bind].
  exists (mkBS (bs_class s) (sc_points (bs_class s) o init goal) (bs_name s) :: l'). split; [destruct l; reflexivity|].
  constructor; [|exact Hr]. split; [reflexivity|]. split; [exact Hm|]. intros o1 r Hc. exists o, (clean g), o1. auto.
Qed.

(** the map solver number p starts on is frozen *)
Definition frozen_at (fz : bool) (ks : list role) (p : nat) : bool :=
  match p with O => fz | S q => match nth_error ks q with Some k => freezes k | None => false end end.
Definition spoiled (fz : bool) (ks : list role) (p : nat) : Prop := frozen_at fz ks p = true /\ nth_error ks p = Some Other.
Lemma frozen_at_S fz k ks p : frozen_at fz (k :: ks) (S p) = frozen_at (freezes k) ks p.
Proof. destruct p; reflexivity. Qed.

Lemma run_solvers_mannered : forall l ks l' g init goal sg n fz id log files ls gx id' log' files',
  all3 g init goal l ks l' -> run_solvers l' sg n (started fz (clean g)) id log files = Ok (ls, gx, id', log', files') ->
  0 <= id -> 0 < n -> id + n * Z.of_nat (List.length l) < 4294967296 ->
  (l <> [] -> exists k, nth_error ks (List.length ks - 1) = Some k /\ gx = home k (clean g)) /\
  (sg = 2 -> exists fl, files' = files ++ fl /\ Z.of_nat (List.length fl) = n * Z.of_nat (List.length l) /\
     forall k nm t, nth_error fl k = Some (nm, t) -> nm = formatID (id + 1 + Z.of_nat k) ++ str ".grid" /\
       ((exists p, k = (p * Z.to_nat n)%nat /\ spoiled fz ks p) \/
        exists s r, nth_error l (k / Z.to_nat n) = Some s /\ alone s g init goal r /\ saveGridValues showD r = Ok t)) /\
  (sg = 1 -> exists fl, files' = files ++ fl /\ List.length fl = List.length l /\
     forall k nm t, nth_error fl k = Some (nm, t) ->
       exists s, nth_error l k = Some s /\ nm = grid_file (bs_name s) /\
         ((n = 1 /\ spoiled fz ks k) \/ exists r, alone s g init goal r /\ saveGridValues showD r = Ok t)).
Proof.
  intros l ks l' g init goal sg n fz id log files ls gx id' log' files' Hr. revert fz id log files ls gx id' log' files'.
  induction Hr as [|s k s' l ks l1 Hs Hl IH]; intros fz id log files ls gx id' log' files' H H0 Hn Hlt; cbn [BenchModel.run_solvers] in H.
  - inversion H; subst. split; [congruence|].
    split; [intros _; exists []; rewrite app_nil_r; split; [auto|]; split; [cbn; lia|]; intros k nm t Hk; destruct k; discriminate Hk|].
    intros _; exists []; rewrite app_nil_r; split; [auto|]; split; [cbn; lia|]; intros k nm t Hk; destruct k; discriminate Hk.
  - cbn [List.length] in Hlt. rewrite Nat2Z.inj_succ in Hlt. assert (Hpos : 0 <= n * Z.of_nat (List.length l)) by nia.
    destruct Hs as [Enm [Hm Hal]].
    apply bind_ok in H. destruct H as [[[[[o1 g1] id1] log1] files1] [H1 H]].
    pose proof (runs_log _ _ _ _ _ _ _ _ _ _ _ _ _ _ _ _ H1 ltac:(lia) ltac:(rewrite Z2Nat.id; lia)) as [Eid _].
    rewrite Z2Nat.id in Eid by lia. subst id1.
    destruct (runs_block _ _ _ _ _ _ _ _ _ _ _ _ _ _ _ _ Hm H1 ltac:(lia) ltac:(lia) ltac:(rewrite Z2Nat.id; lia)) as [[o2' K0] [K2 [K3 K4]]].
    apply bind_ok in H. destruct H as [fs [Hfs H]]. apply bind_ok in H. destruct H as [[o2 g2] [H2 H]]. apply bind_ok in H. destruct H as [[[[[r1 g3] id3] log3] files3] [H3 H]].
    injection H as <- <- <- <- <-. rewrite K0 in H2. injection H2 as <- <-.
    assert (Ehome : home k (clean g) = started (freezes k) (clean g)) by reflexivity. rewrite Ehome in H3.
    destruct (IH (freezes k) (id + n) log1 fs r1 g3 id3 log3 files3 H3 ltac:(lia) Hn ltac:(lia)) as [I1 [I3 I4]].
    split; [|split].
    + intros _. destruct Hl as [|s2 k2 s2' l2 ks2 l2' Hs2 Hl2].
      * cbn [BenchModel.run_solvers] in H3. injection H3 as _ <- _ _ _. exists k. split; [reflexivity|]. symmetry. exact Ehome.
      * destruct (I1 ltac:(discriminate)) as [kk [E1 E2]]. exists kk. split; [|exact E2]. cbn [List.length] in E1 |- *. rewrite Nat.sub_succ, Nat.sub_0_r in *. exact E1.
    + intros ->. destruct (I3 eq_refl) as [fl [-> [Elen Hfl]]]. cbn in Hfs. injection Hfs as <-. destruct (K2 eq_refl) as [f0 [-> [El0 Hf0]]].
      eexists. split; [rewrite <- app_assoc; reflexivity|]. split; [rewrite app_length, El0; cbn [List.length]; rewrite Nat2Z.inj_succ, Z.mul_succ_r; lia|].
      intros q nm t0 Hk. destruct (Nat.lt_ge_cases q (Z.to_nat n)) as [Hlk|Hlk].
      * rewrite nth_error_app1 in Hk by lia. destruct (Hf0 _ _ _ Hk) as [-> Hor]. split; [reflexivity|]. destruct Hor as [[-> Hz]|[oc [r [Hc Ht]]]].
        -- left. exists O. split; [reflexivity|]. apply andb_prop in Hz. destruct Hz as [Hz1 Hz2]. split; [exact Hz1|]. destruct k; try discriminate Hz2. reflexivity.
        -- right. exists s, r. rewrite Nat.div_small by lia. split; [reflexivity|]. split; [exact (Hal _ _ Hc)|exact Ht].
      * rewrite nth_error_app2 in Hk by lia. rewrite El0 in Hk. destruct (Hfl _ _ _ Hk) as [-> Hor].
        split; [do 2 f_equal; lia|]. destruct Hor as [[p [Ep [Hp1 Hp2]]]|[s2 [r2 [Hn2 Hr2]]]].
        -- left. exists (S p). split; [cbn [Nat.mul]; lia|]. split; [rewrite frozen_at_S; exact Hp1|exact Hp2].
        -- right. exists s2, r2. split; [|exact Hr2].
           assert (Ek : (q / Z.to_nat n = S ((q - Z.to_nat n) / Z.to_nat n))%nat).
           { replace q with ((q - Z.to_nat n) + 1 * Z.to_nat n)%nat at 1 by lia. rewrite Nat.div_add by lia. lia. }
           rewrite Ek. exact Hn2.
    + intros ->. destruct (I4 eq_refl) as [fl [-> [Elen Hfl]]]. cbn [Z.eqb Pos.eqb] in Hfs. apply bind_ok in Hfs. destruct Hfs as [t [Ht Hfs]]. injection Hfs as <-.
      rewrite (K3 ltac:(lia)). eexists. split; [rewrite <- app_assoc; reflexivity|]. cbn [app List.length]. split; [lia|].
      intros q nm t0 Hk. destruct q as [|q]; cbn [nth_error] in Hk.
      * injection Hk as <- <-. exists s. split; [reflexivity|]. split; [rewrite Enm; reflexivity|]. destruct K4 as [[En Hz]|[oc Hc]].
        -- left. split; [lia|]. apply andb_prop in Hz. destruct Hz as [Hz1 Hz2]. split; [exact Hz1|]. destruct k; try discriminate Hz2. reflexivity.
        -- right. exists g1. split; [exact (Hal _ _ Hc)|exact Ht].
      * destruct (Hfl _ _ _ Hk) as [s2 [A [B C]]]. exists s2. split; [exact A|]. split; [exact B|]. destruct C as [[En [Hp1 Hp2]]|C]; [left|right; exact C].
        split; [exact En|]. split; [rewrite frozen_at_S; exact Hp1|exact Hp2].
Qed.

Lemma spoiled_after ks n p : spoiled false ks p -> after_lsm ks n (p * n).
Proof.
  intros [A B]. destruct p as [|p]; [discriminate A|]. exists p. split; [reflexivity|]. split; [|exact B]. cbn in A. destruct (nth_error ks p) as [[| |]|]; try discriminate A. reflexivity.
Qed.

(** Benchmark::run with newly made solvers of the library, LSM and DDQM included: all that an
    LSM spoils is the first run of the solver after it, unless that solver is an LSM or a DDQM;
    all the other runs give what the solver computes alone on the map.  With two or more runs
    per solver the one-file-per-solver mode saves nothing spoiled. *)
Theorem C113_one_run_lost :
  forall (b b' : bench N) (g g' : grid N) roles,
  bench_run b g = Ok (b', g') -> fits g -> Forall2 lib_solver (b_solvers b) roles ->
  (In DoubleQueue roles -> ddqm_env_step (clean g) = ddqm_reset_step (clean g)) ->
  0 <= b_runID b -> 0 < b_nruns b -> b_runID b + b_nruns b * Z.of_nat (List.length (b_solvers b)) < 4294967296 ->
  (b_saveGrid b = 2 -> exists fl, b_files b' = b_files b ++ fl /\ Z.of_nat (List.length fl) = b_nruns b * Z.of_nat (List.length (b_solvers b)) /\
     forall k nm t, nth_error fl k = Some (nm, t) -> nm = formatID (b_runID b + 1 + Z.of_nat k) ++ str ".grid" /\
       (after_lsm roles (Z.to_nat (b_nruns b)) k \/
        exists s r, nth_error (b_solvers b) (k / Z.to_nat (b_nruns b)) = Some s /\ alone s g (b_init b) (b_goal b) r /\ saveGridValues showD r = Ok t)) /\
  (b_saveGrid b = 1 -> exists fl, b_files b' = b_files b ++ fl /\ List.length fl = List.length (b_solvers b) /\
     forall k nm t, nth_error fl k = Some (nm, t) ->
       exists s, nth_error (b_solvers b) k = Some s /\ nm = grid_file (bs_name s) /\
         ((b_nruns b = 1 /\ after_lsm roles 1 k) \/ exists r, alone s g (b_init b) (b_goal b) r /\ saveGridValues showD r = Ok t)) /\
  (last roles Other <> Locking -> b_solvers b <> [] -> g' = clean g).
Proof.
  intros b b' g g' roles H Hf Hl Hd H0 Hn Hlt. unfold BenchModel.bench_run in H.
  assert (HM : Forall2 (fun s k => mannered s k g) (b_solvers b) roles).
  { clear - Hl Hf Hd. induction Hl as [|s k l ks Hs Hl IH]; constructor.
    - apply lib_mannered; auto. intros ->. apply Hd. left; reflexivity.
    - apply IH. intros Hi. apply Hd. right; exact Hi. }
  destruct (config_mannered _ _ g (b_init b) (b_goal b) g HM (or_introl eq_refl)) as [l' [E Hr]]. rewrite E in H. cbn [bind] in H.
  apply bind_ok in H. destruct H as [[[[[s2 g2] id] log] files] [H2 H]]. injection H as <- <-. cbn [b_files].
  destruct (b_solvers b) as [|s0 ss] eqn:Es.
  - inversion Hr; subst. cbn [BenchModel.run_solvers] in H2. injection H2 as <- <- <- <- <-.
    split; [intros _; exists []; rewrite app_nil_r; split; [auto|]; split; [cbn; lia|]; intros k nm t Hk; destruct k; discriminate Hk|].
    split; [intros _; exists []; rewrite app_nil_r; split; [auto|]; split; [cbn; lia|]; intros k nm t Hk; destruct k; discriminate Hk|]. congruence.
  - rewrite <- Es in *.
    destruct (run_solvers_mannered _ _ _ _ _ _ _ _ false _ _ _ _ _ _ _ _ Hr H2 H0 Hn Hlt) as [A [C D]].
    split; [|split].
    + intros Hsg. destruct (C Hsg) as [fl [E1 [E2 E3]]]. exists fl. split; [exact E1|]. split; [exact E2|]. intros k nm t Hk. destruct (E3 _ _ _ Hk) as [B1 [[p [-> Hp]]|B2]]; (split; [exact B1|]).
      * left. apply spoiled_after. exact Hp.
      * right. exact B2.
    + intros Hsg. destruct (D Hsg) as [fl [E1 [E2 E3]]]. exists fl. split; [exact E1|]. split; [exact E2|]. intros k nm t Hk. destruct (E3 _ _ _ Hk) as [s [B1 [B2 [[B3 B4]|B3]]]]; exists s; (split; [exact B1|]; split; [exact B2|]).
      * left. split; [exact B3|]. apply (spoiled_after _ 1%nat) in B4. rewrite Nat.mul_1_r in B4. exact B4.
      * right. exact B3.
    + intros Hlast Hne. destruct (A Hne) as [k [Hk ->]]. assert (Ek : last roles Other = k).
      { clear - Hk. destruct roles as [|r rs] using rev_ind; [discriminate Hk|]. rewrite last_last, app_length in *. cbn [List.length] in Hk. replace (List.length rs + 1 - 1)%nat with (List.length rs) in Hk by lia.
        rewrite nth_error_app2, Nat.sub_diag in Hk by lia. injection Hk as ->. reflexivity. }
      rewrite Ek in Hlast. unfold home. destruct k; try reflexivity. congruence.
Qed.

Lemma all_mannered g l roles : fits g -> Forall2 lib_solver l roles -> (In DoubleQueue roles -> ddqm_env_step (clean g) = ddqm_reset_step (clean g)) -> Forall2 (fun s k => mannered s k g) l roles.
Proof.
  intros Hf Hl Hd. induction Hl as [|s k l ks Hs Hl IH]; constructor.
  - apply lib_mannered; auto. intros ->. apply Hd. left; reflexivity.
  - apply IH. intros Hi. apply Hd. right; exact Hi.
Qed.

Lemma bench_log_exact (b b' : bench N) (g g' : grid N) roles :
  bench_run b g = Ok (b', g') -> fits g -> Forall2 lib_solver (b_solvers b) roles ->
  (In DoubleQueue roles -> ddqm_env_step (clean g) = ddqm_reset_step (clean g)) ->
  0 <= b_runID b -> 0 < b_nruns b -> b_runID b + b_nruns b * Z.of_nat (List.length (b_solvers b)) < 4294967296 ->
  b_log b' = b_log b ++ logConfig b g ++ lines timeOf (numbered (b_runID b) (flat_map (fun nm => repeat nm (Z.to_nat (b_nruns b))) (map bs_name (b_solvers b)))).
Proof.
  intros H Hf Hl Hd H0 Hn Hlt. unfold BenchModel.bench_run in H.
  destruct (config_mannered _ _ g (b_init b) (b_goal b) g (all_mannered g _ _ Hf Hl Hd) (or_introl eq_refl)) as [l' [E Hr]]. rewrite E in H. cbn [bind] in H.
  apply bind_ok in H. destruct H as [[[[[ss g2] id] log] files] [H2 H]]. injection H as <- <-. cbn [b_log].
  pose proof (configSolvers_names _ _ _ _ _ _ E) as En. assert (El : List.length l' = List.length (b_solvers b)) by (rewrite <- (map_length bs_name l'), En, map_length; reflexivity).
  apply run_solvers_log in H2; [|lia|lia|rewrite El; lia]. destruct H2 as [_ [_ ->]].
  rewrite <- En. rewrite <- app_assoc. f_equal. f_equal.
  - unfold logConfig. destruct (b_solvers b); [reflexivity|]. unfold clean. destruct (negb (g_clean g)); reflexivity.
  - f_equal. f_equal. clear. induction l' as [|s l IH]; cbn [flat_map map]; [reflexivity|]. rewrite IH. reflexivity.
Qed.

(** the same, read off: an LSM at the end, or followed only by LSM and DDQM, spoils nothing *)
Theorem C113_harmless_order :
  forall (b b' : bench N) (g g' : grid N) roles,
  bench_run b g = Ok (b', g') -> fits g -> Forall2 lib_solver (b_solvers b) roles ->
  (In DoubleQueue roles -> ddqm_env_step (clean g) = ddqm_reset_step (clean g)) ->
  0 <= b_runID b -> 0 < b_nruns b -> b_runID b + b_nruns b * Z.of_nat (List.length (b_solvers b)) < 4294967296 ->
  (forall p, nth_error roles p = Some Locking -> nth_error roles (S p) <> Some Other) -> b_saveGrid b = 2 ->
  exists fl, b_files b' = b_files b ++ fl /\ Z.of_nat (List.length fl) = b_nruns b * Z.of_nat (List.length (b_solvers b)) /\
     forall k nm t, nth_error fl k = Some (nm, t) -> nm = formatID (b_runID b + 1 + Z.of_nat k) ++ str ".grid" /\
        exists s r, nth_error (b_solvers b) (k / Z.to_nat (b_nruns b)) = Some s /\ alone s g (b_init b) (b_goal b) r /\ saveGridValues showD r = Ok t.
Proof.
  intros b b' g g' roles H Hf Hl Hd H0 Hn Hlt Ho Hsg.
  destruct (C113_one_run_lost b b' g g' roles H Hf Hl Hd H0 Hn Hlt) as [A _]. destruct (A Hsg) as [fl [E1 [E2 E3]]].
  exists fl. split; [exact E1|]. split; [exact E2|]. intros k nm t Hk. destruct (E3 _ _ _ Hk) as [B1 [[p [_ [P1 P2]]]|B2]]; [destruct (Ho p P1 P2)|]. split; [exact B1|exact B2].
Qed.
End B.

(** ** the program test_fm_benchmark *)
Definition benchmark_roles : list role :=
  [Other; Other; Other; Other; Other; Other; Other; Other; Other; Other; Other; Other; Other; Locking; DoubleQueue].
Lemma benchmark_solvers_lib {N : Num} fuel : Forall2 (lib_solver (N := N)) (benchmark_solvers fuel) benchmark_roles.
Proof. unfold benchmark_solvers, benchmark_roles. cbn [map construct md_kind md_name md_args heur uns dbl hd tl]. repeat constructor. Qed.

Lemma new_grid_fits {N : Num} dims (leaf : N) : proper dims -> box_size dims < 4294967296 -> fits (new_grid dims leaf).
Proof.
  intros Hp Hlt. split; [|exists dims; split; [exact Hp|]; split; [exact Hlt|]; apply new_grid_ok; auto].
  intros _ i c Hc. apply new_grid_cell in Hc. subst c. cbn. auto.
Qed.

(** on a new map of doubles with cells of size one both formulas of DDQM give the same step *)
Lemma small_big z : Z.abs z <= 9007199254740992 -> (Rabs (IZR z) <= big)%R.
Proof.
  intros Hz. rewrite <- abs_IZR. apply Rle_trans with (IZR 9007199254740992); [apply IZR_le, Hz|].
  change 9007199254740992%Z with (2 ^ 53)%Z. change (IZR (2 ^ 53)) with (IZR (radix_val radix2 ^ 53)). rewrite IZR_Zpower by lia.
  apply bpow_le; lia.
Qed.
Lemma Fin_one : Fin (n1 : F64) 1. Proof. exact (Fin_ofZ 1 ltac:(lia)). Qed.

Lemma sum_of_ones : forall l a (s : F64) k, Fin s (IZR a) -> 0 <= a -> a + Z.of_nat (List.length l) < 4294967296 -> (forall c, In c l -> exists i, c = fresh_cell i) ->
  exists s', fold_left (fun '(s, k) (c : cell F64) => if negb (isOccupied c) then (nadd s (c_occ c), k) else (s, (k + 1)%Z)) l (s, k) = (s', k) /\ Fin s' (IZR (a + Z.of_nat (List.length l))).
Proof.
  induction l as [|c l IH]; intros a s k Hs Ha Hlt Hl; cbn [fold_left].
  - exists s. split; [reflexivity|]. cbn. rewrite Z.add_0_r. exact Hs.
  - destruct (Hl c (or_introl eq_refl)) as [i ->]. replace (isOccupied (fresh_cell (N := F64) i)) with false by (vm_compute; reflexivity). cbn [negb c_occ fresh_cell].
    cbn [List.length] in *. rewrite Nat2Z.inj_succ in *.
    assert (Ha1 : Fin (nadd s (n1 : F64) : F64) (IZR (a + 1))).
    { assert (E : (IZR a + 1 = IZR (a + 1))%R) by (rewrite plus_IZR; reflexivity).
      assert (K : Fin (nadd s (n1 : F64) : F64) (rnd (IZR a + 1))) by (apply Fin_plus; [exact Hs|exact Fin_one|rewrite E; apply small_big; lia]).
      rewrite E, (Fin_rnd _ _ (Fin_ofZ (a + 1) ltac:(lia))) in K. exact K. }
    destruct (IH (a + 1) _ k Ha1 ltac:(lia) ltac:(lia) (fun c' H => Hl c' (or_intror H))) as [s' [E1 E2]].
    exists s'. split; [exact E1|]. replace (a + Z.succ (Z.of_nat (List.length l))) with (a + 1 + Z.of_nat (List.length l)) by lia. exact E2.
Qed.

Lemma Fin_eq (x y : F64) r : Fin x r -> Fin y r -> r <> 0%R -> x = y.
Proof.
  intros [Fx <-] [Fy Ey] Hr. apply B2R_inj; [| |congruence].
  - destruct x; try discriminate Fx; [cbn in Hr; lra|reflexivity].
  - rewrite <- Ey in Hr. destruct y; try discriminate Fy; [cbn in Hr; lra|reflexivity].
Qed.

Lemma avg_new dims : proper dims -> box_size dims < 4294967296 -> Fin (getAvgSpeed (new_grid dims (n1 : F64))) 1.
Proof.
  intros Hp Hlt. pose proof (new_grid_ok (N := F64) dims n1 Hp Hlt) as [Hs Hl].
  assert (Hb : 0 < box_size dims) by (clear Hl Hs Hlt; induction Hp as [|k r H1 H2 IH]; [cbn; lia|]; change (box_size (k :: r)) with (k * box_size r); nia).
  unfold getAvgSpeed. destruct (sum_of_ones (g_cells (new_grid dims (n1 : F64))) 0 n0 0 (Fin_ofZ 0 ltac:(lia)) ltac:(lia) ltac:(lia)) as [s' [-> E]].
  { intros c Hc. unfold new_grid, resize in Hc. cbn [g_cells] in Hc. apply in_map_iff in Hc. destruct Hc as [i [<- _]]. eauto. }
  rewrite Z.add_0_l, Hl in E. rewrite Hs, mk_shape_eq by (auto; lia). cbn [s_n]. rewrite Z.sub_0_r. unfold u32. rewrite Z.mod_small by lia.
  assert (E1 : (IZR (box_size dims) / IZR (box_size dims) = 1)%R) by (field; apply not_0_IZR; lia).
  assert (K : Fin (ndiv s' (nofZ (box_size dims) : F64) : F64) (rnd (IZR (box_size dims) / IZR (box_size dims)))).
  { apply Fin_div; [exact E|apply Fin_ofZ; lia|apply not_0_IZR; lia|]. rewrite E1. apply (small_big 1). lia. }
  rewrite E1, (Fin_rnd _ _ Fin_one) in K. exact K.
Qed.

Theorem C113_ddqm_steps_agree :
  forall dims, proper dims -> box_size dims < 4294967296 ->
  ddqm_env_step (clean (new_grid dims (n1 : F64))) = ddqm_reset_step (clean (new_grid dims (n1 : F64))).
Proof.
  intros dims Hp Hlt. change (clean (new_grid dims (n1 : F64))) with (new_grid dims (n1 : F64)).
  assert (Ea : getAvgSpeed (new_grid dims (n1 : F64)) = (n1 : F64)) by (apply (Fin_eq _ _ 1 (avg_new dims Hp Hlt) Fin_one); lra).
  unfold ddqm_env_step, ddqm_reset_step. rewrite Ea. change (g_leaf (new_grid dims (n1 : F64))) with (n1 : F64).
  apply B2SF_inj. vm_compute. reflexivity.
Qed.

(** The program test_fm_benchmark, with the constructor's setting (no grid files), and had it
    asked for the grids of all runs: one configuration line and 45 numbered lines, three per
    solver; every grid is the one the solver computes alone on the empty 300x300 map, in spite
    of the LSM among the solvers, because the only solver after it is DDQM. *)
Definition benchmark_names : list text :=
  map str ["FMM"%string; "FMM*"%string; "FMM*_Dist"%string; "FMFib"%string; "FMM*Fib"%string; "FMM*Fib_Dist"%string; "SFMM"%string; "SFMM*"%string; "SFMM*_Dist"%string;
           "GMM"%string; "FIM"%string; "UFMM"%string; "FSM"%string; "LSM"%string; "DDQM"%string].

Lemma nth_flat_repeat_text : forall (l : list text) n k nm, (0 < n)%nat ->
  nth_error (flat_map (fun s => repeat s n) l) k = Some nm -> nth_error l (k / n) = Some nm.
Proof.
  induction l as [|s l IH]; intros n k nm Hn; cbn [flat_map].
  - destruct k; discriminate.
  - destruct (Nat.lt_ge_cases k n) as [Hk|Hk].
    + rewrite nth_error_app1 by (rewrite repeat_length; lia). rewrite Nat.div_small by lia. cbn [nth_error].
      rewrite nth_error_repeat by lia. auto.
    + rewrite nth_error_app2 by (rewrite repeat_length; lia). rewrite repeat_length. intros H. apply IH in H; [|exact Hn].
      assert (Ek : (k / n = S ((k - n) / n))%nat).
      { replace k with ((k - n) + 1 * n)%nat at 1 by lia. rewrite Nat.div_add by lia. lia. }
      rewrite Ek. exact H.
Qed.

Lemma program_runs {N : Num} showD timeOf fuel sg :
  test_fm_benchmark (N := N) showD fuel sg timeOf =
  bench_run showD timeOf (mkBench (benchmark_solvers fuel) [45150] 75250 sg 0 3 (str "Testing_Benchmark") [] []) (new_grid [300;300] n1).
Proof. reflexivity. Qed.
Lemma names_of_solvers {N : Num} fuel : map bs_name (benchmark_solvers (N := N) fuel) = benchmark_names.
Proof. reflexivity. Qed.
Lemma number_of_solvers {N : Num} fuel : List.length (benchmark_solvers (N := N) fuel) = 15%nat.
Proof. reflexivity. Qed.
Lemma clean_new {N : Num} dims (leaf : N) : clean (new_grid dims leaf) = new_grid dims leaf.
Proof. reflexivity. Qed.
Lemma dims_new (leaf : F64) : s_dims (g_sh (new_grid [300;300] leaf)) = [300;300].
Proof. reflexivity. Qed.

Definition first_line : text :=
  str "Testing_Benchmark" ++ [tab] ++ str "3" ++ [tab] ++ str "2" ++ [tab] ++ str "300" ++ [tab] ++ str "300" ++ [tab] ++ str "1" ++ [tab] ++ str "45150" ++ [tab] ++ str "75250".

Lemma program_first_line {N : Num} (b : bench N) g : b_name b = str "Testing_Benchmark" -> b_nruns b = 3 -> b_init b = [45150] -> b_goal b = 75250 -> s_dims (g_sh g) = [300;300] ->
  logConfig b g = first_line.
Proof. intros E1 E2 E3 E4 E5. unfold logConfig. rewrite E1, E2, E3, E4, E5. vm_compute. reflexivity. Qed.

Lemma harmless_roles : forall p, nth_error benchmark_roles p = Some Locking -> nth_error benchmark_roles (S p) <> Some Other.
Proof. intros p Hp1 Hp2. do 16 (destruct p as [|p]; [cbn in Hp1, Hp2; congruence|]). destruct p; discriminate Hp1. Qed.
Lemma numbered_length id names : List.length (numbered id names) = List.length names.
Proof. unfold numbered. rewrite combine_length, map_length, seq_length. apply Nat.min_id. Qed.
Lemma names_length : List.length (flat_map (fun nm => repeat nm 3) benchmark_names) = 45%nat.
Proof. reflexivity. Qed.

Lemma program_facts showD timeOf fuel (b b' : bench F64) g g' :
  bench_run showD timeOf b g = Ok (b', g') -> fits g -> ddqm_env_step (clean g) = ddqm_reset_step (clean g) -> s_dims (g_sh g) = [300;300] ->
  b_solvers b = benchmark_solvers fuel -> b_init b = [45150] -> b_goal b = 75250 -> b_runID b = 0 -> b_nruns b = 3 -> b_name b = str "Testing_Benchmark" -> b_log b = [] -> b_files b = [] ->
  (exists runs : list (Z * text),
    b_log b' = first_line ++ flat_map (fun e => newline :: formatID (fst e) ++ [tab] ++ snd e ++ [tab] ++ timeOf (fst e)) runs /\
    List.length runs = 45%nat /\
    forall k id name, nth_error runs k = Some (id, name) -> id = 1 + Z.of_nat k /\ nth_error benchmark_names (k / 3) = Some name) /\
  g' = clean g /\
  (b_saveGrid b = 2 -> List.length (b_files b') = 45%nat /\
     forall k nm t, nth_error (b_files b') k = Some (nm, t) -> nm = formatID (1 + Z.of_nat k) ++ str ".grid" /\
        exists s r, nth_error (benchmark_solvers fuel) (k / 3) = Some s /\ alone s g [45150] 75250 r /\ saveGridValues showD r = Ok t).
Proof.
  intros H Hf Hst Hdim Es Ei Eg Eid En Enm El Efl.
  assert (HL : Forall2 lib_solver (b_solvers b) benchmark_roles) by (rewrite Es; apply benchmark_solvers_lib).
  assert (H15 : Z.of_nat (List.length (b_solvers b)) = 15) by (rewrite Es, number_of_solvers; reflexivity).
  assert (G0 : 0 <= b_runID b) by (rewrite Eid; lia). assert (G1 : 0 < b_nruns b) by (rewrite En; lia).
  assert (G2 : b_runID b + b_nruns b * Z.of_nat (List.length (b_solvers b)) < 4294967296) by (rewrite Eid, En, H15; lia).
  split; [|split].
  - pose proof (bench_log_exact showD timeOf b b' g g' benchmark_roles H Hf HL (fun _ => Hst) G0 G1 G2) as E3.
    rewrite Es, names_of_solvers, El, Eid, En, (program_first_line b g Enm En Ei Eg Hdim), app_nil_l in E3. change (Z.to_nat 3) with 3%nat in E3.
    exists (numbered 0 (flat_map (fun nm => repeat nm 3) benchmark_names)). split; [exact E3|]. split; [rewrite numbered_length; exact names_length|].
    intros k id0 nm Hk. rewrite nth_numbered in Hk. destruct (nth_error (flat_map (fun nm => repeat nm 3) benchmark_names) k) as [nm'|] eqn:En'; [|discriminate Hk].
    injection Hk as <- <-. split; [reflexivity|]. exact (nth_flat_repeat_text _ 3 k nm' ltac:(lia) En').
  - destruct (C113_one_run_lost showD timeOf b b' g g' benchmark_roles H Hf HL (fun _ => Hst) G0 G1 G2) as [_ [_ K]].
    apply K; [cbn; discriminate|]. intros E. rewrite E in H15. discriminate H15.
  - intros Hsg. destruct (C113_harmless_order showD timeOf b b' g g' benchmark_roles H Hf HL (fun _ => Hst) G0 G1 G2 harmless_roles Hsg) as [fl [E1 [E2 E3]]].
    rewrite Efl, app_nil_l in E1. rewrite E1. split; [rewrite En, H15 in E2; lia|]. intros k nm t Hk. specialize (E3 k nm t Hk). rewrite Eid, En, Es, Ei, Eg in E3. exact E3.
Qed.

Theorem C113_test_fm_benchmark :
  forall fuel sg showD timeOf (b' : bench F64) g', test_fm_benchmark showD fuel sg timeOf = Ok (b', g') ->
  (exists runs : list (Z * text),
    b_log b' = str "Testing_Benchmark" ++ [tab] ++ str "3" ++ [tab] ++ str "2" ++ [tab] ++ str "300" ++ [tab] ++ str "300" ++ [tab] ++ str "1" ++ [tab] ++ str "45150" ++ [tab] ++ str "75250" ++
      flat_map (fun e => newline :: formatID (fst e) ++ [tab] ++ snd e ++ [tab] ++ timeOf (fst e)) runs /\
    List.length runs = 45%nat /\
    forall k id name, nth_error runs k = Some (id, name) -> id = 1 + Z.of_nat k /\ nth_error benchmark_names (k / 3) = Some name) /\
  g' = new_grid [300;300] n1 /\
  (sg = 2 -> List.length (b_files b') = 45%nat /\
     forall k nm t, nth_error (b_files b') k = Some (nm, t) -> nm = formatID (1 + Z.of_nat k) ++ str ".grid" /\
        exists s r, nth_error (benchmark_solvers fuel) (k / 3) = Some s /\ alone s (new_grid [300;300] n1) [45150] 75250 r /\ saveGridValues showD r = Ok t).
Proof.
  intros fuel sg showD timeOf b' g' H. rewrite program_runs in H.
  assert (Hp : proper [300;300]) by (repeat constructor; lia). assert (Hlt : box_size [300;300] < 4294967296) by (cbn; lia).
  destruct (program_facts showD timeOf fuel _ b' _ g' H (new_grid_fits [300;300] n1 Hp Hlt) (C113_ddqm_steps_agree [300;300] Hp Hlt) (dims_new n1) eq_refl eq_refl eq_refl eq_refl eq_refl eq_refl eq_refl eq_refl)
    as [[rs [A1 [A2 A3]]] [B C]].
  split; [|split].
  - exists rs. split; [|split; [exact A2|exact A3]]. rewrite A1. unfold first_line. rewrite <- !app_assoc. reflexivity.
  - rewrite B. apply clean_new.
  - exact C.
Qed.

(** *** cases *)
(** an LSM between an FMM and a DDQM, and between two FMM: the roles decide *)
Definition case_order : list (bsolver F64) :=
  [mkBS (cLSM 50) (fsm_new 1000) (str "LSM"); mkBS (cDDQM 50) ddqm_new (str "DDQM"); mkBS (cFMM RefHeap 50) (fmm_new RefHeap NOHEUR) (str "FMM")].
Definition case_roles := [Locking; DoubleQueue; Other].
Definition file_names (x : res (bench F64 * grid F64)) : list text := match x with Ok (b, _) => map fst (b_files b) | _ => [] end.
Example C113_case :
  fits case_grid /\ Forall2 lib_solver case_order case_roles /\ ddqm_env_step (clean case_grid) = ddqm_reset_step (clean case_grid) /\
  (forall p, nth_error case_roles p = Some Locking -> nth_error case_roles (S p) <> Some Other) /\
  file_names (bench_run show_fin (fun _ => str "t") (mkBench case_order [0] (-1) 2 0 2 (str "b") [] []) case_grid) =
    map (fun k => formatID k ++ str ".grid") [1;2;3;4;5;6] /\
  Forall2 lib_solver (b_solvers spoil_bench) [Locking; Other] /\ after_lsm [Locking; Other] 1 1.
Proof.
  split; [split; [apply vgrid_flag|exists [3;2]; split; [repeat constructor; lia|split; [cbn; lia|split; reflexivity]]]|].
  split; [repeat constructor|]. split; [apply B2SF_inj; vm_compute; reflexivity|].
  split; [intros p; do 4 (destruct p as [|p]; [cbn; congruence|]); destruct p; discriminate|].
  split; [vm_compute; reflexivity|]. split; [repeat constructor|]. exists O. auto.
Qed.

Print Assumptions C113_one_run_lost. Print Assumptions C113_harmless_order. Print Assumptions C113_ddqm_steps_agree. Print Assumptions C113_test_fm_benchmark. Print Assumptions C113_case.

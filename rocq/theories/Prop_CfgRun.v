(** Prop_CfgRun.v - C99: a benchmark finishes.

    On doubles, with solvers fmm, fmm*, fmmfib, fmmfib*, sfmm, sfmm* and fsm, on a map with at
    least two cells and at most 65536 in each of its two or more dimensions, from free start
    points (or several), to a free goal that is none of them or without goal: Benchmark::run
    and the program fm_benchmark come to their end.  The other solvers: lsm and ddqm change the
    state they start from (C45), fim, gmm and ufmm need not finish on doubles (C92, C37, C93). *)
From Coq Require Import Ascii String.
From Verif Require Import Base BaseFacts Num NumF64 NumLaws Grid GridFacts GridMore GridUpd Spec Obs FMMModel SweepModel SolverModel HeapRef DaryModel FibModel
  Frame Lifecycle Prop_FMM Prop_Star Prop_Dary Prop_Fib Prop_SFMM Prop_Sweep SweepOrder Prop_Solver TextModel TextSpec TextFacts IOModel BenchModel Prop_Text Prop_Bench CfgModel Prop_Cfg.
Open Scope Z_scope.
Open Scope list_scope.

(** ** Benchmark::run *)
Section T.
Context {N : Num} (showD : N -> text) (timeOf : Z -> text).

Definition savable (g : grid N) : Prop := exists t, saveGridValues showD g = Ok t.
Definition able (gc : grid N) (s : bsolver N) : Prop :=
  repeatable (bs_class s) (bs_obj s) gc /\ exists oc g1, sc_compute (bs_class s) (bs_obj s) gc = Ok (oc, g1) /\ savable g1.

Lemma runs_total : forall n sg name c (o : sc_obj c) gc o1 g1 id log files, repeatable c o gc -> sc_compute c o gc = Ok (o1, g1) -> savable g1 ->
  (exists r, runs showD timeOf n sg name c o gc id log files = Ok r /\ (fst (fst (fst r)) = (o, gc) \/ fst (fst (fst r)) = (o1, g1))) /\
  (exists r, runs showD timeOf n sg name c o1 g1 id log files = Ok r /\ fst (fst (fst r)) = (o1, g1)).
Proof.
  induction n as [|n IH]; intros sg name c o gc o1 g1 id log files Hrep Hc [t Ht]; cbn [runs].
  - split; eexists; split; [reflexivity|left; reflexivity|reflexivity|reflexivity].
  - pose proof Hrep as [[ob [Hr0 Hc0]] Hr1]. destruct (Hr1 _ _ Hc) as [o2 [Hr2 Hc2]]. rewrite Hr0, Hr2. cbn [bind]. rewrite Hc0, Hc2, Hc. cbn [bind].
    assert (F : exists fs, (if sg =? 2 then t <- saveGridValues showD g1 ;; Ok (files ++ [(grid_file (formatID (u32 (id + 1))), t)]) else Ok files) = Ok fs).
    { destruct (sg =? 2); [rewrite Ht; eexists; reflexivity|eauto]. }
    destruct F as [fs ->]. cbn [bind].
    destruct (IH sg name c o gc o1 g1 (u32 (id + 1)) (log ++ log_line timeOf (u32 (id + 1)) name) fs Hrep Hc (ex_intro _ t Ht)) as [_ [r [E1 E2]]].
    split; exists r; auto.
Qed.

Lemma solvers_total : forall l sg n gc id log files, Forall (able gc) l -> savable gc ->
  exists r, run_solvers showD timeOf l sg n gc id log files = Ok r.
Proof.
  induction l as [|s l IH]; intros sg n gc id log files Hl Hs; cbn [run_solvers]; [eexists; reflexivity|].
  inversion Hl as [|? ? [Hrep [oc [g1 [Hc Hs1]]]] Hl']; subst.
  destruct (runs_total (Z.to_nat n) sg (bs_name s) _ _ _ _ _ id log files Hrep Hc Hs1) as [[[[[[o2 g2] id2] log2] files2] [E K]] _]. rewrite E. cbn [bind fst] in K |- *.
  assert (R : exists o3, sc_reset (bs_class s) o2 g2 = Ok (o3, gc) /\ savable g2).
  { destruct K as [K|K]; inversion K; subst.
    - destruct Hrep as [[ob [Hr0 _]] _]. eauto.
    - destruct Hrep as [_ Hr1]. destruct (Hr1 _ _ Hc) as [o3 [Hr3 _]]. eauto. }
  destruct R as [o3 [Hr3 [t Ht]]].
  assert (F : exists fs, (if sg =? 1 then t <- saveGridValues showD g2 ;; Ok (files2 ++ [(grid_file (bs_name s), t)]) else Ok files2) = Ok fs).
  { destruct (sg =? 1); [rewrite Ht; eexists; reflexivity|eauto]. }
  destruct F as [fs ->]. cbn [bind]. rewrite Hr3. cbn [bind]. destruct (IH sg n gc id2 log2 fs Hl' Hs) as [[[[[r1 g3] id3] log3] files3] E3]. rewrite E3. eexists. reflexivity.
Qed.

Lemma config_able : forall l g init goal gx, honest g -> Forall fresh l -> gx = g \/ gx = clean g ->
  (forall s, In s l -> exists r, alone s g init goal r /\ savable r) ->
  exists l', configSolvers l init goal gx = Ok (l', match l with [] => gx | _ => clean g end) /\ Forall (able (clean g)) l'.
Proof.
  induction l as [|s l IH]; intros g init goal gx Hh Hf Hx Ha; cbn [configSolvers]; [exists []; auto|].
  inversion Hf as [|? ? Hs Hl]; subst. destruct (Hs g init goal Hh) as [o [E1 [E2 Hrep]]].
  assert (E : sc_env (bs_class s) (bs_obj s) (Some gx) = Ok (o, clean g)) by (destruct Hx as [->| ->]; auto).
  rewrite E. cbn [bind]. destruct (IH g init goal (clean g) Hh Hl (or_intror eq_refl) (fun s Hs => Ha s (or_intror Hs))) as [l' [El' Hr]]. rewrite El'. cbn [bind].
  exists (mkBS (bs_class s) (sc_points (bs_class s) o init goal) (bs_name s) :: l'). split; [destruct l; reflexivity|].
  constructor; [|exact Hr]. split; [exact Hrep|]. cbn [bs_class bs_obj]. destruct (Ha s (or_introl eq_refl)) as [r [[o' [g0 [o1 [A B]]]] Hsv]].
  rewrite E1 in A. inversion A; subst. eauto.
Qed.

(** C99: a benchmark comes to its end as soon as each of its solvers, alone on the map, does *)
Theorem C99_benchmark_ends_if_each_solver_does : forall (b : bench N) (g : grid N),
  honest g -> Forall fresh (b_solvers b) -> savable (clean g) ->
  (forall s, In s (b_solvers b) -> exists r, alone s g (b_init b) (b_goal b) r /\ savable r) ->
  exists b' g', bench_run showD timeOf b g = Ok (b', g').
Proof.
  intros b g Hh Hf Hs Ha. unfold bench_run. destruct (config_able (b_solvers b) g (b_init b) (b_goal b) g Hh Hf (or_introl eq_refl) Ha) as [l' [E Hl]]. rewrite E. cbn [bind].
  destruct (b_solvers b) as [|s0 ss] eqn:Es.
  - assert (l' = []) by (destruct l'; [reflexivity|cbn in E; discriminate]). subst l'. cbn [run_solvers bind]. eauto.
  - destruct (solvers_total l' (b_saveGrid b) (b_nruns b) (clean g) (b_runID b) (b_log b ++ logConfig b (clean g)) (b_files b) Hl Hs) as [[[[[s2 g2] id] log] files] E2].
    rewrite E2. cbn [bind]. eauto.
Qed.

Lemma grid_savable dims (g : grid N) : proper dims -> 1 <= box_size dims < 4294967296 -> grid_ok dims g -> savable g.
Proof.
  intros Hp Hb [Hs Hl]. unfold savable, saveGridValues, save_cells, header, gsize.
  assert (G : forall i, 0 <= i < box_size dims -> exists c, getCell g i = Ok c).
  { intros i Hi. destruct (nth_error (g_cells g) (Z.to_nat i)) as [c|] eqn:E; [|apply nth_error_None in E; lia]. exists c. unfold getCell, vget. destruct (Z.leb_spec 0 i); [|lia]. rewrite E. reflexivity. }
  destruct (G 0 ltac:(lia)) as [c0 ->]. cbn [bind].
  assert (E : forall l, (forall i, In i l -> 0 <= i < box_size dims) -> exists vs, mapM (fun i => c <- getCell g i ;; Ok (newline :: showD (c_val c))) l = Ok vs).
  { induction l as [|i l IH]; intros H; cbn [mapM]; [eauto|]. destruct (G i (H i (or_introl eq_refl))) as [c ->]. cbn [bind].
    destruct (IH (fun j Hj => H j (or_intror Hj))) as [vs ->]. cbn [bind]. eauto. }
  rewrite Hs, mk_shape_eq by (try exact Hp; lia). cbn [s_n s_dims]. destruct (E (zseq (Z.to_nat (box_size dims)))) as [vs Ev]; [intros i Hi; apply in_zseq in Hi; lia|].
  rewrite Ev. cbn [bind]. eauto.
Qed.
End T.

(** ** the solvers *)
Definition finishing (k : kind) : Prop :=
  k = KFMM \/ k = KFMMStar \/ k = KFMMFib \/ k = KFMMFibStar \/ k = KSFMM \/ k = KSFMMStar \/ k = KFSM.
(** what the set up of a solver demands (C38), and what C24 demands of a map with heuristics *)
Record problem (dims : list Z) (g : grid F64) (init : list Z) (goal : Z) : Prop := {
  pb_shape : shape_ok dims; pb_dims : (2 <= List.length dims)%nat; pb_sizes : Forall (fun d => d <= 65536) dims;
  pb_grid : grid_ok dims g;
  pb_init : init <> [] /\ forall i, In i init -> 0 <= i < box_size dims;
  pb_free : forall i, init = [i] -> free g i;
  pb_goal : goal = noGoal \/ free g goal /\ ~ In goal init
}.
Lemma dims2_box dims : dims2 dims -> 1 <= box_size dims.
Proof. intros H. induction H as [|d ds Hd H IH]; [cbn; lia|]. rewrite box_size_cons. nia. Qed.
Lemma dims2_proper dims : dims2 dims -> proper dims.
Proof. intros H. eapply Forall_impl; [|exact H]. cbn. intros; lia. Qed.

Lemma occ_clean {N : Num} (g : grid N) i c : getCell (clean g) i = Ok c -> exists c', getCell g i = Ok c' /\ isOccupied c' = isOccupied c.
Proof.
  unfold clean. destruct (g_clean g); cbn [negb]; [eauto|]. unfold getCell, vget. destruct (0 <=? i); [|discriminate]. cbn [g_cells]. rewrite nth_error_map.
  destruct (nth_error (g_cells g) (Z.to_nat i)) as [c'|]; [|discriminate]. cbn [option_map]. intros E. inversion E; subst. exists c'. split; reflexivity.
Qed.

Section S.
Variables (dims : list Z) (g : grid F64) (init : list Z) (goal : Z) (showD : F64 -> text).
Hypothesis P : problem dims g init goal.
Hypothesis Hh : honest g.

Let gk := setClean (clean g) false.
Lemma gk_cells_len : g_sh gk = g_sh g /\ List.length (g_cells gk) = List.length (g_cells g).
Proof. unfold gk, setClean, clean. destruct (g_clean g); cbn; [auto|]. rewrite map_length. auto. Qed.
Lemma gk_clean : clean_grid dims gk.
Proof.
  destruct (pb_grid _ _ _ _ P) as [A B]. destruct gk_cells_len as [C D]. split; [split; [rewrite C; exact A|rewrite D; exact B]|].
  intros i c Hc. assert (K : getCell (clean g) i = Ok c) by exact Hc. destruct (clean_default g Hh i c K) as [K1 [K2 [_ K4]]]. auto.
Qed.
Lemma goal_in : goal = noGoal \/ 0 <= goal < box_size dims.
Proof. destruct (pb_goal _ _ _ _ P) as [->|[[c [Hc _]] _]]; [left; reflexivity|right]. apply getCell_range in Hc. rewrite (proj2 (pb_grid _ _ _ _ P)) in Hc. exact Hc. Qed.

(** the set up succeeds *)
Lemma set_up s : sv_grid s = GSet -> exists s', solver_setup (setInitialAndGoalPoints s init goal) (clean g) = Ok (s', gk) /\ sv_init s' = init /\ sv_goal s' = Some (u32 goal) /\ sv_setup s' = true /\ sv_grid s' = GSet.
Proof.
  intros Hs. destruct (pb_shape _ _ _ _ P) as [H2 Hlt]. pose proof (dims2_box _ H2) as Hb. pose proof (dims2_proper _ H2) as Hp.
  set (gl := if goal =? noGoal then -1 else goal).
  assert (Eg : setInitialAndGoalPoints s init goal = setInitialAndGoalPoints s init gl).
  { unfold gl. destruct (Z.eqb_spec goal noGoal) as [->|]; reflexivity. }
  assert (Eu : u32 gl = u32 goal) by (unfold gl; destruct (Z.eqb_spec goal noGoal) as [->|]; reflexivity).
  assert (Hgl : gl = -1 \/ 0 <= gl < box_size dims).
  { unfold gl. destruct (Z.eqb_spec goal noGoal); [left; reflexivity|]. destruct goal_in; [contradiction|right; assumption]. }
  assert (Hgc : grid_ok dims (clean g)) by exact (proj1 gk_clean).
  destruct (C38_setup_decides dims (clean g) s init gl Hp ltac:(lia) Hgc Hs (proj2 (pb_init _ _ _ _ P)) Hgl) as [code [E [F [_ B]]]].
  assert (code = 0).
  { cbn in F. destruct F as [[F _]|[_ F]]; [rewrite clean_flag in F; discriminate|].
    destruct F as [[F _]|[_ F]]; [destruct (pb_init _ _ _ _ P); contradiction|].
    destruct F as [[[i [F1 [c [F2 F3]]]] _]|[_ F]].
    { exfalso. destruct (occ_clean _ _ _ F2) as [c' [Hc' Ho]]. destruct (pb_free _ _ _ _ P i F1) as [c2 [Hc2 Ho2]]. congruence. }
    destruct F as [[[F0 [c [F2 F3]]] _]|[_ F]].
    { exfalso. unfold gl in F0, F2. destruct (Z.eqb_spec goal noGoal); [congruence|]. destruct (pb_goal _ _ _ _ P) as [|[[c2 [Hc2 Ho2]] _]]; [contradiction|].
      destruct (occ_clean _ _ _ F2) as [c' [Hc' Ho]]. congruence. }
    destruct F as [[F _]|[_ F]]; [|exact F]. exfalso. unfold gl in F. destruct (Z.eqb_spec goal noGoal).
    - apply (proj2 (pb_init _ _ _ _ P)) in F. lia.
    - destruct (pb_goal _ _ _ _ P) as [|[_ K]]; contradiction. }
  destruct (B H) as [s'' [B1 [B2 [B3 [B4 B5]]]]]. exists s''. rewrite Eg. split; [exact B1|]. split; [exact B4|]. split; [congruence|]. auto.
Qed.

Lemma frame_savable I g' : frame I gk g' -> savable showD g'.
Proof.
  intros [A [_ [_ [_ [L _]]]]]. destruct (pb_shape _ _ _ _ P) as [H2 Hlt]. pose proof (dims2_box _ H2). apply (grid_savable showD dims); [apply dims2_proper; exact H2|lia|].
  destruct (proj1 gk_clean) as [B C]. split; [congruence|]. rewrite L. exact C.
Qed.

Lemma goal_u32 : u32 goal = goal /\ (s32 (u32 goal) = -1 -> goal = noGoal).
Proof.
  destruct (pb_shape _ _ _ _ P) as [H2 Hlt]. pose proof (dims2_box _ H2). destruct goal_in as [->|Hi]; [split; reflexivity|].
  split; [unfold u32; apply Z.mod_small; lia|]. intros K. apply s32_u32 in K; [exact K|lia].
Qed.

(** FMM with one of the library's heaps and any strategy *)
Lemma fmm_alone (HO : HeapOps F64) strat nm :
  (forall dims (g : grid F64) init cfg goal, shape_ok dims -> clean_grid dims g -> (forall i, In i init -> 0 <= i < box_size dims) -> heuristic_ready dims cfg ->
     exists k st log, (forall fuel, (k <= fuel)%nat -> fmm_outcome HO cfg goal init g fuel st log) /\ (helems HO (fs_h st) = [] \/ hd_error log = Some goal)) ->
  exists k, forall fuel, (k <= fuel)%nat -> exists r, alone (mkBS (cFMM HO fuel) (fmm_new HO strat) nm) g init goal r /\ savable showD r.
Proof.
  intros T. destruct (pb_shape _ _ _ _ P) as [H2 Hlt]. pose proof (dims2_box _ H2) as Hb. pose proof (dims2_proper _ H2) as Hp.
  destruct (set_up (mkSolver GSet false [] None) eq_refl) as [s' [E1 [E2 [E3 [E4 E5]]]]]. destruct goal_u32 as [Hu Hs].
  (* the heuristics *)
  assert (K : exists o1, fmm_setup HO (fmm_setPoints HO (mkFmm (mkSolver GSet false [] None) (hempty HO) strat [] false []) init goal) (clean g) = Ok (o1, gk) /\
     fo_s o1 = s' /\ fo_band o1 = hempty HO /\ heuristic_ready dims (mkCfg (fo_strat o1) (fo_dist o1) (fo_coord o1))).
  { unfold fmm_setup, fmm_setPoints, fmm_with_solver. cbn [fo_s fo_band fo_strat fo_dist fo_pre fo_coord]. rewrite E1. cbn [bind]. unfold fmm_setHeuristics. cbn [fo_s fo_band fo_strat fo_dist fo_pre fo_coord].
    unfold goal_of. rewrite E3. cbn [bind].
    assert (Z1 : strat = NOHEUR \/ exists o1, (if negb (s32 (u32 goal) =? -1) then gc <- idx2coord (g_sh gk) (u32 goal) ;; d <- precomputeDistances (g_sh gk) ;; Ok (mkFmm s' (hempty HO) strat d true gc)
        else Ok (mkFmm s' (hempty HO) strat [] false [])) = Ok o1 /\ fo_s o1 = s' /\ fo_band o1 = hempty HO /\ fo_strat o1 = strat /\
        (s32 (u32 goal) <> -1 -> heuristic_ready dims (mkCfg (fo_strat o1) (fo_dist o1) (fo_coord o1)))).
    { right. destruct (Z.eqb_spec (s32 (u32 goal)) (-1)) as [Eg|Eg]; cbn [negb]; [eexists; split; [reflexivity|]; cbn; tauto|].
      assert (Hg : 0 <= goal < box_size dims) by (destruct goal_in as [->|]; [exfalso; apply Eg; reflexivity|assumption]).
      rewrite Hu, (proj1 (proj1 gk_clean)).
      destruct (proj1 (idx_coord_bijection dims (pb_dims _ _ _ _ P) Hp ltac:(lia)) goal Hg) as [gc [G1 [G2 G3]]]. rewrite G1. cbn [bind].
      destruct (C24_lookups_succeed F64 dims gc strat (pb_dims _ _ _ _ P) Hp ltac:(lia) (pb_sizes _ _ _ _ P) G2) as [dist [D1 D2]]. rewrite D1. cbn [bind].
      eexists. split; [reflexivity|]. cbn. auto. }
    destruct Z1 as [->|[o1 [A [B [C [D F]]]]]]; [cbn [bind fo_strat]; eexists; split; [reflexivity|]; cbn; split; [reflexivity|]; split; [reflexivity|]; left; reflexivity|].
    destruct strat; [cbn [bind fo_strat]; eexists; split; [reflexivity|]; cbn; split; [reflexivity|]; split; [reflexivity|]; left; reflexivity| |];
      (cbn [bind]; rewrite A; cbn [bind]; rewrite D; destruct (Z.eqb_spec (s32 (u32 goal)) (-1)) as [Eg|Eg];
       [eexists; split; [reflexivity|]; cbn; split; [exact B|]; split; [exact C|]; left; reflexivity|exists o1; split; [reflexivity|]; split; [exact B|]; split; [exact C|]; apply F; exact Eg]). }
  destruct K as [o1 [K1 [K2 [K3 K4]]]].
  destruct (T dims gk init _ (u32 goal) (pb_shape _ _ _ _ P) gk_clean (proj2 (pb_init _ _ _ _ P)) K4) as [k [st [log [R _]]]].
  exists k. intros fuel Hf. specialize (R fuel Hf). unfold fmm_outcome in R.
  exists (fs_g st). split.
  - eexists _, _, _. split; [reflexivity|]. cbn [bs_class bs_obj cFMM sc_points sc_compute]. unfold fmm_compute.
    cbn [fmm_setPoints fmm_with_solver fo_s sv_setup setInitialAndGoalPoints]. 
    change (fmm_setPoints HO _ init goal) with (fmm_setPoints HO (mkFmm (mkSolver GSet false [] None) (hempty HO) strat [] false []) init goal).
    cbn [sv_setup fmm_new fo_s new_solver]. rewrite K1. cbn [bind]. rewrite K2. unfold goal_of. rewrite E3. cbn [bind]. rewrite E2, K3, R. cbn [bind]. reflexivity.
  - eapply (frame_savable (fun i => In i init)). eapply fmm_run_frame; [|exact R]. auto.
Qed.

Lemma fsm_alone m nm : exists k, forall fuel, (k <= fuel)%nat -> exists r, alone (mkBS (cFSM fuel) (fsm_new m) nm) g init goal r /\ savable showD r.
Proof.
  destruct (set_up (mkSolver GSet false [] None) eq_refl) as [s' [E1 [E2 [E3 [E4 E5]]]]].
  assert (Ed : s_dims (g_sh (clean g)) = dims) by (rewrite <- (shape_dims dims); f_equal; exact (proj1 (proj1 gk_clean))).
  destruct (C32_fsm_terminates_doubles dims gk init (u32 m) (u32 goal) 0 (init_incs (List.length dims)) (pb_shape _ _ _ _ P) (proj1 gk_clean) (proj2 (pb_init _ _ _ _ P)) (C30_initial_directions _)) as [k [[[st sw] incs] R]].
  exists k. intros fuel Hf. specialize (R fuel Hf). exists (sw_g st). split.
  - eexists _, _, _. split; [reflexivity|]. cbn [bs_class bs_obj cFSM sc_points sc_compute]. unfold fsm_compute, sweep_compute, fsm_setPoints. cbn [so_s so_sweeps so_max so_incs so_dims fsm_new sv_setup setInitialAndGoalPoints new_solver].
    unfold fsm_setup. cbn [so_s so_sweeps so_max so_incs so_dims].
    unfold setInitialAndGoalPoints in E1 |- *. cbn [sv_setup sv_grid sv_init sv_goal] in E1 |- *. rewrite E1. cbn [bind so_s so_sweeps so_max so_incs so_dims]. unfold goal_of. rewrite E3. cbn [bind]. rewrite E2, Ed, R. cbn [bind]. reflexivity.
  - eapply (frame_savable (fun i => In i init)). apply (fsm_run_frame (fun i => In i init) _ _ _ _ _ _ _ _ (fun i H => H) R).
Qed.

Lemma solver_alone (m : made F64) : finishing (md_kind m) -> exists k, forall fuel, (k <= fuel)%nat -> exists r, alone (construct fuel m) g init goal r /\ savable showD r.
Proof.
  destruct m as [k nm a]. cbn [md_kind]. intros [->|[->|[->|[->|[->|[->| ->]]]]]]; unfold construct; cbn [md_kind md_name md_args].
  - apply fmm_alone. exact C15_fmm_with_fmdaryheap_terminates.
  - apply fmm_alone. exact C15_fmm_with_fmdaryheap_terminates.
  - apply fmm_alone. exact C15_fmm_with_fmfibheap_terminates.
  - apply fmm_alone. exact C15_fmm_with_fmfibheap_terminates.
  - apply fmm_alone. exact C68_sfmm_terminates_doubles.
  - apply fmm_alone. exact C68_sfmm_terminates_doubles.
  - apply fsm_alone.
Qed.
End S.

(** C99: Benchmark::run on such a problem comes to its end, whatever the number of runs and
    the saving mode *)
Theorem C99_benchmark_ends : forall dims (g : grid F64) init goal (ms : list (made F64)) sg id nr name log files (showD : F64 -> text) timeOf,
  problem dims g init goal -> honest g -> Forall (fun m => finishing (md_kind m)) ms ->
  exists k, forall fuel, (k <= fuel)%nat ->
    exists b' g', bench_run showD timeOf (mkBench (map (construct fuel) ms) init goal sg id nr name log files) g = Ok (b', g').
Proof.
  intros dims g init goal ms sg id nr name log files showD timeOf P Hh Hm.
  assert (K : exists k, forall fuel, (k <= fuel)%nat -> forall m, In m ms -> exists r, alone (construct fuel m) g init goal r /\ savable showD r).
  { clear sg id nr name log files timeOf. induction Hm as [|m ms H Hm IH]; [exists O; intros fuel _ m []|]. destruct IH as [k1 IH]. destruct (solver_alone dims g init goal showD P Hh m H) as [k2 K2].
    exists (Nat.max k1 k2). intros fuel Hf m' [<-|Hin]; [apply K2; lia|apply IH; [lia|exact Hin]]. }
  destruct K as [k K]. exists k. intros fuel Hf. apply C99_benchmark_ends_if_each_solver_does; cbn [b_solvers b_init b_goal].
  - exact Hh.
  - apply Forall_forall. intros x Hx. apply in_map_iff in Hx. destruct Hx as [m [<- Hin]]. rewrite Forall_forall in Hm. specialize (Hm m Hin).
    apply construct_fresh; intros E; rewrite E in Hm; unfold finishing in Hm; repeat (destruct Hm as [Hm|Hm]; [discriminate Hm|]); discriminate Hm.
  - destruct (pb_shape _ _ _ _ P) as [H2 Hlt]. pose proof (dims2_box _ H2). apply (grid_savable showD dims); [apply dims2_proper; exact H2|lia|exact (proj1 (gk_clean dims g init goal P Hh))].
  - intros s Hs. apply in_map_iff in Hs. destruct Hs as [m [<- Hin]]. apply K; auto.
Qed.

Definition some_keys : list string := ["grid.file"; "grid.text"; "grid.dimsize"; "grid.leafsize"; "problem.start"; "problem.goal"; "benchmark.name"; "benchmark.runs"; "benchmark.savegrid"; "grid.cell"; "grid.ndims"]%string.
Lemma some_registered s : existsb (String.eqb s) some_keys = true -> In (str s) registered.
Proof.
  intros H. apply existsb_exists in H. destruct H as [x [Hx E]]. apply String.eqb_eq in E. subst x. revert s Hx. apply Forall_forall. unfold some_keys.
  repeat (constructor; [apply existsb_text; reflexivity|]). constructor.
Qed.

(** ** the program *)
Section Q.
Context (castU : text -> option Z) (castD : text -> option F64) (showD : F64 -> text) (readD : text -> option F64) (timeOf : Z -> text).
Context (image : text -> option (Z * Z * (Z -> Z -> F64))) (textfile : text -> option text).

Lemma numbers_cast nd t ns : unsigned_cast castU -> (1 <= nd)%nat -> numbers castU nd t ns -> splitAndCast castU nd t = Ok ns.
Proof.
  intros [Hu _] Hnd [fs [Hfs H]]. destruct t as [|c t].
  - exfalso. destruct Hfs as [Hne [Hf E]]. assert (fs = [[]]) as ->.
    { destruct fs as [|a fs]; [contradiction|]. destruct a as [|x a]; [|destruct fs; discriminate E]. destruct fs; [reflexivity|discriminate E]. }
    destruct nd as [|nd]; [lia|]. cbn in H. inversion H; congruence.
  - exact (proj1 (C59_splitAndCast castU nd (c :: t) fs Hfs ltac:(discriminate)) _ H).
Qed.

Lemma asked_configure fuel sfuel nd f l opts sv name nruns save ms g s goal :
  unsigned_cast castU -> (1 <= nd)%nat -> readOptions f (Some l) = Ok (Some (opts, sv)) ->
  asked f l (str "benchmark.name") name -> number_asked castU f l (str "benchmark.runs") nruns -> number_asked castU f l (str "benchmark.savegrid") save ->
  configure_solvers castU castD sfuel (readSolvers (others l)) = Ok ms ->
  map_asked castU castD readD image textfile nd f l g -> nd = 2%nat \/ ~ mentions l (str "grid.file") ->
  cell_asked castU nd f l (str "problem.start") g s -> goal_asked castU nd f l g goal ->
  configure castU castD readD image textfile fuel sfuel nd opts sv = Ok (mkBench (map (construct fuel) ms) [s] goal save 0 nruns name [] [], g).
Proof.
  intros Hu Hnd Hro An [tr [Ar Er]] [ts [As Es]] Hms [tl [leaf [g0 [Al [El [-> [Mf [Mt Md]]]]]]]] Hnf [tst [cs [Ast [Ncs Ecs]]]] Hg.
  destruct (readOptions_ok _ _ _ _ Hro) as [-> [K Kn]].
  assert (O : forall s v, existsb (String.eqb s) some_keys = true -> asked f l (str s) v -> option_at opts (str s) = Ok v).
  { intros x v Hs E. unfold option_at. rewrite (proj2 (K _ _ (some_registered x Hs)) E). reflexivity. }
  assert (V : forall T (cast : text -> option T) s t v, existsb (String.eqb s) some_keys = true -> asked f l (str s) t -> cast t = Some v -> getValue cast opts (str s) = Ok v).
  { intros T cast x t v Hs E Ev. unfold getValue. rewrite (proj2 (K _ _ (some_registered x Hs)) E), Ev. reflexivity. }
  unfold configure. rewrite (O "benchmark.name"%string name eq_refl An). cbn [bind].
  rewrite (V _ castU "benchmark.savegrid"%string _ _ eq_refl As Es). cbn [bind]. rewrite (V _ castU "benchmark.runs"%string _ _ eq_refl Ar Er). cbn [bind].
  rewrite Hms. cbn [bind].
  assert (Eg : cfg_grid castU readD image textfile nd opts = Ok g0).
  { unfold cfg_grid. destruct (lookup (str "grid.file") opts) as [p|] eqn:Ef.
    - assert (Hp : In (str "grid.file", p) l).
      { apply (asked_not_default f); [|apply K; [apply (some_registered "grid.file"%string eq_refl)|exact Ef]]. intros w D; unfold default_value in D; repeat (destruct D as [[D _]|D]; [discriminate D|]); destruct D as [D _]; discriminate D. }
      destruct (Mf p Hp) as [w [h [img [Ei Eload]]]]. rewrite Ei. destruct Hnf as [->|Hnf]; [|exfalso; apply Hnf; exists p; exact Hp]. cbn [Nat.eqb]. exact Eload.
    - pose proof (Kn _ (some_registered "grid.file"%string eq_refl) Ef) as Hno. destruct (lookup (str "grid.text") opts) as [p|] eqn:Et.
      + assert (Hp : In (str "grid.text", p) l).
        { apply (asked_not_default f); [|apply K; [apply (some_registered "grid.text"%string eq_refl)|exact Et]]. intros w D; unfold default_value in D; repeat (destruct D as [[D _]|D]; [discriminate D|]); destruct D as [D _]; discriminate D. }
        rewrite (Mt Hno p Hp). reflexivity.
      + pose proof (Kn _ (some_registered "grid.text"%string eq_refl) Et) as Hno2. destruct (Md Hno Hno2) as [dt [dims [Ad [Nd ->]]]].
        rewrite (O "grid.dimsize"%string dt eq_refl Ad). cbn [bind]. rewrite (numbers_cast _ _ _ Hu Hnd Nd). reflexivity. }
  rewrite Eg. cbn [bind]. rewrite (V _ castD "grid.leafsize"%string _ _ eq_refl Al El). cbn [bind].
  rewrite (O "problem.start"%string tst eq_refl Ast). cbn [bind]. rewrite (numbers_cast _ _ _ Hu Hnd Ncs). cbn [bind]. rewrite Ecs. cbn [bind].
  destruct Hg as [[Ag ->]|[Hn [tg [gc [Ag [Ng Eg2]]]]]].
  - rewrite (O "problem.goal"%string _ eq_refl Ag). cbn [bind]. rewrite text_eqb_refl. reflexivity.
  - rewrite (O "problem.goal"%string tg eq_refl Ag). cbn [bind]. destruct (text_eqb tg (str "nan")) eqn:E; [apply text_eqb_eq in E; subst tg; contradiction|].
    rewrite (numbers_cast _ _ _ Hu Hnd Ng). cbn [bind]. rewrite Eg2. reflexivity.
Qed.

(** C99: fm_benchmark on such a configuration returns 0 *)
Theorem C99_program_ends : forall sfuel f more file l nd name nruns save ms g s goal,
  unsigned_cast castU -> image_sizes image ->
  (* the configuration *)
  file f = Some l -> (forall k, ~ twice (filter is_registered l) k) ->
  asked f l (str "grid.cell") (str "FMCell") -> number_asked castU f l (str "grid.ndims") nd -> nd = 2 \/ (nd = 3 /\ ~ mentions l (str "grid.file")) ->
  asked f l (str "benchmark.name") name -> number_asked castU f l (str "benchmark.runs") nruns -> number_asked castU f l (str "benchmark.savegrid") save ->
  configure_solvers castU castD sfuel (readSolvers (others l)) = Ok ms ->
  map_asked castU castD readD image textfile (Z.to_nat nd) f l g ->
  cell_asked castU (Z.to_nat nd) f l (str "problem.start") g s -> goal_asked castU (Z.to_nat nd) f l g goal ->
  (* what it describes *)
  Forall (fun m => finishing (md_kind m)) ms -> problem (s_dims (g_sh g)) g [s] goal ->
  exists k, forall fuel, (k <= fuel)%nat -> exists files, fm_benchmark castU castD showD readD timeOf image textfile fuel sfuel (f :: more) file = Ok (0, files).
Proof.
  intros sfuel f more file l nd name nruns save ms g s goal Hu Hi Hf Ht Hc [tn [Hn En]] Hnd An Ar As Hms Hmap Hst Hgo Hfin P.
  assert (Hm : mentions l (str "problem.start")).
  { destruct Hst as [t [cs [A _]]]. exists t. apply (asked_not_default f); [|exact A]. intros w D; unfold default_value in D; repeat (destruct D as [[D _]|D]; [discriminate D|]); destruct D as [D _]; discriminate D. }
  destruct (proj2 (C98_options f l) Ht Hm) as [opts [E K]].
  assert (Hn1 : (1 <= Z.to_nat nd)%nat) by lia.
  assert (Hn2 : Z.to_nat nd = 2%nat \/ ~ mentions l (str "grid.file")) by (destruct Hnd as [->|[_ H]]; [left; reflexivity|right; exact H]).
  assert (Hconf : forall fuel, configure castU castD readD image textfile fuel sfuel (Z.to_nat nd) opts (readSolvers (others l)) = Ok (mkBench (map (construct fuel) ms) [s] goal save 0 nruns name [] [], g)).
  { intros fuel. exact (asked_configure fuel sfuel (Z.to_nat nd) f l opts _ name nruns save ms g s goal Hu Hn1 E An Ar As Hms Hmap Hn2 Hst Hgo). }
  assert (Hh : honest g).
  { destruct (configure_asked castU castD showD readD timeOf image textfile O sfuel (Z.to_nat nd) f l opts _ _ _ Hu Hi Hn1 E (Hconf O)) as [ms' [_ _ _ _ _ _ _ _ [A _]]]. intros _. exact A. }
  destruct (C99_benchmark_ends _ g [s] goal ms save 0 nruns name [] [] showD timeOf P Hh Hfin) as [k Hk].
  exists k. intros fuel Hfuel. destruct (Hk fuel Hfuel) as [b' [g' Eb]].
  exists (results b'). unfold fm_benchmark. rewrite Hf, E. cbn [bind].
  pose proof (some_registered "grid.cell"%string eq_refl) as Rc. pose proof (some_registered "grid.ndims"%string eq_refl) as Rn.
  unfold option_at. rewrite (proj2 (K _ _ Rc) Hc). cbn [bind]. rewrite text_eqb_refl. unfold getValue at 1. rewrite (proj2 (K _ _ Rn) Hn), En. cbn [bind].
  assert (Eb2 : (nd =? 2) || (nd =? 3) = true) by (destruct Hnd as [->|[-> _]]; reflexivity). rewrite Eb2, Hconf. cbn [bind]. rewrite Eb. reflexivity.
Qed.

(** C99: a map that cannot be opened ends the program before any file is written: exit
    status 1 for a text map, abnormal end for an image *)
Theorem C99_map_that_cannot_be_opened : forall fuel sfuel f more file l nd name nruns save ms p,
  file f = Some l -> (forall k, ~ twice (filter is_registered l) k) -> mentions l (str "problem.start") ->
  asked f l (str "grid.cell") (str "FMCell") -> number_asked castU f l (str "grid.ndims") nd -> nd = 2 \/ nd = 3 ->
  asked f l (str "benchmark.name") name -> number_asked castU f l (str "benchmark.runs") nruns -> number_asked castU f l (str "benchmark.savegrid") save ->
  configure_solvers castU castD sfuel (readSolvers (others l)) = Ok ms ->
  (In (str "grid.text", p) l -> ~ mentions l (str "grid.file") -> textfile p = None ->
   fm_benchmark castU castD showD readD timeOf image textfile fuel sfuel (f :: more) file = Fail (Exit 1)) /\
  (In (str "grid.file", p) l -> image p = None ->
   fm_benchmark castU castD showD readD timeOf image textfile fuel sfuel (f :: more) file = Fail abort).
Proof.
  intros fuel sfuel f more file l nd name nruns save ms p Hf Ht Hm Hc [tn [Hn En]] Hnd An [tr [Ar Er]] [ts [As Es]] Hms.
  destruct (proj2 (C98_options f l) Ht Hm) as [opts [E K]]. destruct (readOptions_ok _ _ _ _ E) as [_ [_ Kn]].
  assert (O : forall s v, existsb (String.eqb s) some_keys = true -> asked f l (str s) v -> option_at opts (str s) = Ok v).
  { intros x v Hs Ex. unfold option_at. rewrite (proj2 (K _ _ (some_registered x Hs)) Ex). reflexivity. }
  assert (V : forall T (cast : text -> option T) s t v, existsb (String.eqb s) some_keys = true -> asked f l (str s) t -> cast t = Some v -> getValue cast opts (str s) = Ok v).
  { intros T cast x t v Hs Ex Ev. unfold getValue. rewrite (proj2 (K _ _ (some_registered x Hs)) Ex), Ev. reflexivity. }
  assert (Eb2 : (nd =? 2) || (nd =? 3) = true) by (destruct Hnd as [->| ->]; reflexivity).
  assert (B : forall e, cfg_grid castU readD image textfile (Z.to_nat nd) opts = Fail e ->
              fm_benchmark castU castD showD readD timeOf image textfile fuel sfuel (f :: more) file = Fail e).
  { intros e Eg. unfold fm_benchmark. rewrite Hf, E. cbn [bind].
    rewrite (O "grid.cell"%string _ eq_refl Hc). cbn [bind]. rewrite text_eqb_refl. rewrite (V _ castU "grid.ndims"%string _ _ eq_refl Hn En). cbn [bind].
    rewrite Eb2. unfold configure. rewrite (O "benchmark.name"%string name eq_refl An). cbn [bind].
    rewrite (V _ castU "benchmark.savegrid"%string _ _ eq_refl As Es). cbn [bind]. rewrite (V _ castU "benchmark.runs"%string _ _ eq_refl Ar Er). cbn [bind].
    rewrite Hms. cbn [bind]. rewrite Eg. reflexivity. }
  assert (L : forall s, existsb (String.eqb s) some_keys = true -> In (str s, p) l -> lookup (str s) opts = Some p).
  { intros s Hs Hp. apply (proj2 (K _ _ (some_registered s Hs))). left. exact Hp. }
  split.
  - intros Hp Hno Hx. apply B. unfold cfg_grid. destruct (lookup (str "grid.file") opts) as [q|] eqn:Ef.
    + exfalso. apply Hno. exists q. apply (asked_not_default f); [|apply K; [apply (some_registered "grid.file"%string eq_refl)|exact Ef]].
      intros w D; unfold default_value in D; repeat (destruct D as [[D _]|D]; [discriminate D|]); destruct D as [D _]; discriminate D.
    + rewrite (L "grid.text"%string eq_refl Hp), Hx. reflexivity.
  - intros Hp Hx. apply B. unfold cfg_grid. rewrite (L "grid.file"%string eq_refl Hp), Hx. reflexivity.
Qed.
End Q.

(** C99: an empty map, from grid.dimsize, is such a problem as soon as its sizes allow it,
    the start is inside, and the goal is inside and is not the start *)
Lemma empty_problem dims (leaf : F64) s goal : shape_ok dims -> (2 <= List.length dims)%nat -> Forall (fun d => d <= 65536) dims ->
  0 <= s < box_size dims -> goal = noGoal \/ (0 <= goal < box_size dims /\ goal <> s) ->
  problem dims (setLeafSize (resize empty_grid dims) leaf) [s] goal.
Proof.
  intros Hs Hl Hd Hst Hg. pose proof Hs as [H2 Hlt]. pose proof (dims2_proper _ H2) as Hp.
  assert (G : grid_ok dims (setLeafSize (resize (empty_grid (N := F64)) dims) leaf)).
  { split; [reflexivity|]. cbn [setLeafSize g_cells resize]. rewrite map_length, length_zseq, mk_shape_eq by (try exact Hp; lia). cbn [s_n]. rewrite Z2Nat.id; [reflexivity|]. pose proof (dims2_box _ H2). lia. }
  assert (F : forall i, 0 <= i < box_size dims -> free (setLeafSize (resize (empty_grid (N := F64)) dims) leaf) i).
  { intros i Hi. exists (fresh_cell i). split; [|vm_compute; reflexivity]. unfold getCell, vget. destruct (Z.leb_spec 0 i); [|lia]. cbn [setLeafSize g_cells resize]. rewrite nth_error_map.
    rewrite mk_shape_eq by (try exact Hp; lia). cbn [s_n]. rewrite nth_error_zseq by lia. cbn. rewrite Z2Nat.id by lia. reflexivity. }
  constructor; auto.
  - split; [discriminate|]. intros i [<-|[]]. exact Hst.
  - intros i E. injection E as <-. apply F. exact Hst.
  - destruct Hg as [->|[A B]]; [left; reflexivity|right]. split; [apply F; exact A|]. intros [E|[]]. congruence.
Qed.
Theorem C99_empty_map : forall castU castD (showD : F64 -> text) readD timeOf image textfile sfuel f more file l nd dt dims lt (leaf : F64) ts cs tg gc name nruns save ms,
  unsigned_cast castU -> image_sizes (N := F64) image ->
  file f = Some l -> (forall k, ~ twice (filter is_registered l) k) ->
  asked f l (str "grid.cell") (str "FMCell") -> number_asked castU f l (str "grid.ndims") nd -> nd = 2 \/ nd = 3 ->
  ~ mentions l (str "grid.file") -> ~ mentions l (str "grid.text") ->
  asked f l (str "grid.dimsize") dt -> numbers castU (Z.to_nat nd) dt dims -> asked f l (str "grid.leafsize") lt -> castD lt = Some leaf ->
  asked f l (str "problem.start") ts -> numbers castU (Z.to_nat nd) ts cs -> asked f l (str "problem.goal") tg -> (tg <> str "nan" -> numbers castU (Z.to_nat nd) tg gc) ->
  asked f l (str "benchmark.name") name -> number_asked castU f l (str "benchmark.runs") nruns -> number_asked castU f l (str "benchmark.savegrid") save ->
  configure_solvers castU castD sfuel (readSolvers (others l)) = Ok ms -> Forall (fun m => finishing (md_kind m)) ms ->
  shape_ok dims -> Forall (fun d => d <= 65536) dims -> in_box dims cs -> (tg <> str "nan" -> in_box dims gc /\ gc <> cs) ->
  exists k, forall fuel, (k <= fuel)%nat -> exists files, fm_benchmark castU castD showD readD timeOf image textfile fuel sfuel (f :: more) file = Ok (0, files).
Proof.
  intros castU castD showD readD timeOf image textfile sfuel f more file l nd dt dims lt leaf ts cs tg gc name nruns save ms
    Hu Hi Hf Ht Hc Hn Hnd Nf Nt Ad Nd Al El As Ns Ag Ng An Ar Asv Hms Hfin Hsh Hd Hin Hgin.
  assert (Hl : List.length dims = Z.to_nat nd).
  { destruct Nd as [fs [[Hne _] F]]. assert (L : forall A B (R : A -> B -> Prop) a b, Forall2 R a b -> List.length a = List.length b) by (clear; intros A B R a b H; induction H; cbn; congruence). apply L in F. rewrite <- F, firstn_length, app_length, repeat_length. lia. }
  assert (Hl2 : (2 <= List.length dims)%nat) by lia. pose proof Hsh as [H2 Hlt]. pose proof (dims2_box _ H2) as Hb. pose proof (dims2_proper _ H2) as Hp.
  assert (Hne : dims <> []) by (destruct dims; cbn in Hl2; [lia|discriminate]).
  set (g := setLeafSize (resize (empty_grid (N := F64)) dims) leaf).
  assert (B : forall xs, in_box dims xs -> 0 <= cell_number dims xs < box_size dims) by (intros xs Hx; apply cell_number_range; exact Hx).
  destruct (list_eq_dec ascii_dec tg (str "nan")) as [->|Htg].
  - apply (C99_program_ends castU castD showD readD timeOf image textfile sfuel f more file l nd name nruns save ms g (cell_number dims cs) noGoal); auto.
    + destruct Hnd; auto.
    + exists lt, leaf, (resize empty_grid dims). repeat (split; [assumption || reflexivity|]). split; [intros p Hpx; exfalso; apply Nf; exists p; exact Hpx|].
      split; [intros _ p Hpx; exfalso; apply Nt; exists p; exact Hpx|]. intros _ _. exists dt, dims. auto.
    + exists ts, cs. split; [exact As|]. split; [exact Ns|]. apply coord2idx_eq; [exact Hne|lia|exact Hin].
    + left. auto.
    + change (s_dims (g_sh g)) with (s_dims (mk_shape dims)). rewrite shape_dims. apply empty_problem; auto.
  - destruct (Hgin Htg) as [Hg1 Hg2].
    apply (C99_program_ends castU castD showD readD timeOf image textfile sfuel f more file l nd name nruns save ms g (cell_number dims cs) (cell_number dims gc)); auto.
    + destruct Hnd; auto.
    + exists lt, leaf, (resize empty_grid dims). repeat (split; [assumption || reflexivity|]). split; [intros p Hpx; exfalso; apply Nf; exists p; exact Hpx|].
      split; [intros _ p Hpx; exfalso; apply Nt; exists p; exact Hpx|]. intros _ _. exists dt, dims. auto.
    + exists ts, cs. split; [exact As|]. split; [exact Ns|]. apply coord2idx_eq; [exact Hne|lia|exact Hin].
    + right. split; [|exists tg, gc; split; [exact Ag|]; split; [exact (Ng Htg)|]; apply coord2idx_eq; [exact Hne|lia|exact Hg1]].
      intros A. assert (Hm : mentions l (str "problem.start")).
      { exists ts. apply (asked_not_default f); [|exact As]. intros w D; unfold default_value in D; repeat (destruct D as [[D _]|D]; [discriminate D|]); destruct D as [D _]; discriminate D. }
      destruct (proj2 (C98_options f l) Ht Hm) as [opts [E _]].
      apply Htg. apply (asked_fun _ _ _ _ (str "problem.goal") _ _ E); [exact (some_registered "problem.goal"%string eq_refl)|exact Ag|exact A].
    + change (s_dims (g_sh g)) with (s_dims (mk_shape dims)). rewrite shape_dims. apply empty_problem; auto. right. split; [auto|].
      intros Eq. apply Hg2. eapply cell_number_inj; eauto.
Qed.

(** the configuration of C98_case meets the hypotheses *)
Example C99_case : exists k, forall fuel, (k <= fuel)%nat -> exists files,
  fm_benchmark (readU 4294967296) c98_double show_fin c98_double (fun _ => str "0.1") (fun _ => None) (fun _ => None) fuel 100 [str "dir/t.cfg"] c98_files = Ok (0, files).
Proof.
  assert (In1 : forall k v, lookup k c98_cfg = Some v -> asked (str "dir/t.cfg") c98_cfg k v) by (intros k v H; left; apply lookup_In; exact H).
  assert (Df : forall k v, lookup k c98_cfg = None -> default_value (str "dir/t.cfg") k v -> asked (str "dir/t.cfg") c98_cfg k v) by (intros k v H D; right; split; [apply lookup_none; exact H|exact D]).
  assert (NC : forall t, forallb (fun c => negb (Ascii.eqb c comma)) t = true -> ~ In comma t).
  { intros t H K. rewrite forallb_forall in H. specialize (H _ K). rewrite Ascii.eqb_refl in H. discriminate. }
  apply (C99_empty_map (readU 4294967296) c98_double show_fin c98_double (fun _ => str "0.1") (fun _ => None) (fun _ => None) 100 (str "dir/t.cfg") [] c98_files c98_cfg
    2 (str "3,2") [3; 2] (str "1") n1 (str "1,0") [1; 0] (str "2,1") [2; 1] (str "t") 2 2
    [mkMade KFMM None []; mkMade KFSM (Some (str "Sweep")) []]).
  - split; [reflexivity|intros t n; apply readU_range].
  - intros p w h img H. discriminate H.
  - reflexivity.
  - intros k Hk. enough (repeated (map fst (filter is_registered c98_cfg)) = true) as E by (vm_compute in E; discriminate E). apply repeated_twice. exists k. exact Hk.
  - apply Df; [reflexivity|unfold default_value; tauto].
  - exists (str "2"). split; [apply Df; [reflexivity|unfold default_value; tauto]|reflexivity].
  - left. reflexivity.
  - intros [v H]. cbn in H. repeat (destruct H as [H|H]; [discriminate H|]). exact H.
  - intros [v H]. cbn in H. repeat (destruct H as [H|H]; [discriminate H|]). exact H.
  - apply In1. reflexivity.
  - exists [str "3"; str "2"]; split; [split; [discriminate|split; [repeat constructor; apply NC; reflexivity|reflexivity]]|repeat constructor].
  - apply Df; [reflexivity|unfold default_value; tauto].
  - reflexivity.
  - apply In1. reflexivity.
  - exists [str "1"; str "0"]; split; [split; [discriminate|split; [repeat constructor; apply NC; reflexivity|reflexivity]]|repeat constructor].
  - apply In1. reflexivity.
  - intros _. exists [str "2"; str "1"]; split; [split; [discriminate|split; [repeat constructor; apply NC; reflexivity|reflexivity]]|repeat constructor].
  - apply In1. reflexivity.
  - exists (str "2"). split; [apply In1; reflexivity|reflexivity].
  - exists (str "2"). split; [apply In1; reflexivity|reflexivity].
  - vm_compute. reflexivity.
  - constructor; [left; reflexivity|]. constructor; [unfold finishing; cbn; tauto|constructor].
  - split; [repeat (constructor; [lia|]); constructor|cbn; lia].
  - repeat (constructor; [lia|]). constructor.
  - repeat (constructor; [lia|]). constructor.
  - intros _. split; [repeat (constructor; [lia|]); constructor|discriminate].
Qed.
(** the same configuration with a text map that cannot be opened *)
Definition c99_cfg : list (text * text) := (str "grid.text", str "m.grid") :: c98_cfg.
Example C99_case_no_map : fm_benchmark (readU 4294967296) c98_double show_fin c98_double (fun _ => str "0.1") (fun _ => None) (fun _ => None) 0 100 [str "dir/t.cfg"] (fun _ => Some c99_cfg) = Fail (Exit 1).
Proof.
  assert (In1 : forall k v, lookup k c99_cfg = Some v -> asked (str "dir/t.cfg") c99_cfg k v) by (intros k v H; left; apply lookup_In; exact H).
  assert (Df : forall k v, lookup k c99_cfg = None -> default_value (str "dir/t.cfg") k v -> asked (str "dir/t.cfg") c99_cfg k v) by (intros k v H D; right; split; [apply lookup_none; exact H|exact D]).
  refine (proj1 (C99_map_that_cannot_be_opened (readU 4294967296) c98_double show_fin c98_double (fun _ => str "0.1") (fun _ => None) (fun _ => None) 0 100 (str "dir/t.cfg") [] (fun _ => Some c99_cfg) c99_cfg 2 (str "t") 2 2
    [mkMade KFMM None []; mkMade KFSM (Some (str "Sweep")) []] (str "m.grid") eq_refl _ _ _ _ _ _ _ _ _) _ _ eq_refl).
  - intros k Hk. enough (repeated (map fst (filter is_registered c99_cfg)) = true) as E by (vm_compute in E; discriminate E). apply repeated_twice. exists k. exact Hk.
  - exists (str "1,0"). apply lookup_In. reflexivity.
  - apply Df; [reflexivity|unfold default_value; tauto].
  - exists (str "2"). split; [apply Df; [reflexivity|unfold default_value; tauto]|reflexivity].
  - left. reflexivity.
  - apply In1. reflexivity.
  - exists (str "2"). split; [apply In1; reflexivity|reflexivity].
  - exists (str "2"). split; [apply In1; reflexivity|reflexivity].
  - vm_compute. reflexivity.
  - left. reflexivity.
  - intros [v H]. cbn in H. repeat (destruct H as [H|H]; [discriminate H|]). exact H.
Qed.
Print Assumptions C99_program_ends.

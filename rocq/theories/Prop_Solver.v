(** Prop_Solver.v - property theorems C25, C26, C38, C39: solver objects across calls. *)
From Coq Require Import Reals Lra Permutation.
From Verif Require Import Base BaseFacts Num NumXR NumF64 NumLaws Grid GridFacts GridUpd Spec Obs Examples Eikonal FMMModel HeapLaws HeapRef BagHeap
  SweepModel QueueModel UntidyModel Frame SolverModel Lifecycle NoGoal FMMStruct XGrid GridMore Prop_Heap.
Open Scope Z_scope.

(** ** C25 *)
(** A grid whose clean flag is true really is clean (every new grid, every grid after
    clean() or after a run of FMM, FSM, FIM, GMM, UFMM or DDQM; not after LSM::reset, see C26). *)
Definition flag_is_true {N : Num} (g : grid N) : Prop :=
  g_clean g = true -> forall i c, getCell g i = Ok c -> c_val c = ninf /\ c_state c = OPEN /\ c_bucket c = 0 /\ c_h c = n0.

Section C25.
Context {N : Num}.

(** A new solver is given the map, the points, and computes; after reset() the next
    compute() leaves the same grid (and the same solver object), and so on for ever. *)
Fixpoint again {O : Type} (reset compute : O -> grid N -> res (O * grid N)) (n : nat) (r : O * grid N) : res (O * grid N) :=
  match n with
  | O => Ok r
  | S n => '(o, g) <- reset (fst r) (snd r) ;; r' <- compute o g ;; again reset compute n r'
  end.

Lemma again_step {O : Type} (reset compute : O -> grid N -> res (O * grid N)) r :
  (exists o g, reset (fst r) (snd r) = Ok (o, g) /\ compute o g = Ok r) -> forall n, again reset compute n r = Ok r.
Proof. intros [o [g [H1 H2]]] n. induction n as [|n IH]; cbn [again]; [reflexivity|]. rewrite H1. cbn [bind]. rewrite H2. cbn [bind]. exact IH. Qed.

Theorem C25_fmm_reusable :
  forall (HO : HeapOps N) h (g : grid N) init goal fuel o g0 r n,
  flag_is_true g ->
  fmm_setEnvironment HO (fmm_new HO h) (Some g) = Ok (o, g0) ->
  fmm_compute HO fuel (fmm_setPoints HO o init goal) g0 = Ok r ->
  again (fmm_reset HO) (fmm_compute HO fuel) n r = Ok r.
Proof.
  intros HO h g init goal fuel o g0 [o1 g1] n Hf He Hc. injection He as <- <-. apply again_step. cbn [fst snd].
  match type of Hc with _ HO _ ?o _ = _ => destruct (fmm_reset_compute HO o o1 (clean g) g1 fuel (clean_flag g) (clean_default g Hf) eq_refl eq_refl Hc) as [o2 [A B]] end.
  exists o2, (clean g). auto.
Qed.

Theorem C25_fsm_reusable :
  forall (g : grid N) maxSweeps init goal fuel o g0 r n,
  flag_is_true g ->
  fsm_setEnvironment (fsm_new maxSweeps) (Some g) = Ok (o, g0) ->
  fsm_compute fuel (fsm_setPoints o init goal) g0 = Ok r ->
  again fsm_reset (fsm_compute fuel) n r = Ok r.
Proof.
  intros g ms init goal fuel o g0 [o1 g1] n Hf He Hc. injection He as <- <-. apply again_step. cbn [fst snd].
  match type of Hc with _ _ ?o _ = _ => destruct (fsm_reset_compute o o1 (clean g) g1 fuel (clean_flag g) (clean_default g Hf) eq_refl eq_refl Hc) as [o2 [A B]] end.
  exists o2, (clean g). auto.
Qed.

Theorem C25_lsm_reusable :
  forall dims (g : grid N) maxSweeps init goal fuel o g0 r n,
  proper dims -> box_size dims < 4294967296 -> grid_ok dims g -> flag_is_true g ->
  fsm_setEnvironment (fsm_new maxSweeps) (Some g) = Ok (o, g0) ->
  lsm_compute fuel (fsm_setPoints o init goal) g0 = Ok r ->
  again lsm_reset (lsm_compute fuel) n r = Ok r.
Proof.
  intros dims g ms init goal fuel o g0 [o1 g1] n Hp Hlt Hg Hf He Hc. injection He as <- <-. apply again_step. cbn [fst snd].
  assert (Hg' : grid_ok dims (clean g)).
  { unfold clean. destruct (negb (g_clean g)); [|exact Hg]. destruct Hg as [G1 G2]. split; [exact G1|]. cbn [g_cells]. rewrite map_length. exact G2. }
  match type of Hc with _ _ ?o _ = _ => destruct (lsm_reset_compute dims o o1 (clean g) g1 fuel Hp Hlt Hg' (clean_flag g) (clean_default g Hf) eq_refl eq_refl Hc) as [o2 [A B]] end.
  exists o2, (frozen_copy (clean g)). auto.
Qed.

Theorem C25_fim_reusable :
  forall (g : grid N) E init goal fuel o g0 r n,
  flag_is_true g ->
  fim_setEnvironment (fim_new E) (Some g) = Ok (o, g0) ->
  fim_compute fuel (fim_setPoints o init goal) g0 = Ok r ->
  again fim_reset (fim_compute fuel) n r = Ok r.
Proof.
  intros g E init goal fuel o g0 [o1 g1] n Hf He Hc. injection He as <- <-. apply again_step. cbn [fst snd].
  match type of Hc with _ _ ?o _ = _ => destruct (fim_reset_compute o o1 (clean g) g1 fuel (clean_flag g) (clean_default g Hf) eq_refl eq_refl Hc) as [o2 [A B]] end.
  exists o2, (clean g). auto.
Qed.

Theorem C25_gmm_reusable :
  forall (g : grid N) dt init goal fuel o g0 r n,
  flag_is_true g ->
  gmm_setEnvironment (gmm_new dt) (Some g) = Ok (o, g0) ->
  gmm_compute fuel (gmm_setPoints o init goal) g0 = Ok r ->
  again gmm_reset (gmm_compute fuel) n r = Ok r.
Proof.
  intros g dt init goal fuel o g0 [o1 g1] n Hf He Hc. injection He as <- <-. apply again_step. cbn [fst snd].
  match type of Hc with _ _ ?o _ = _ => destruct (gmm_reset_compute o o1 (clean g) g1 fuel (clean_flag g) (clean_default g Hf) eq_refl eq_refl Hc) as [o2 [A B]] end.
  exists o2, (clean g). auto.
Qed.

Theorem C25_ufmm_reusable :
  forall (g : grid N) size inc init goal fuel o g0 r n,
  flag_is_true g ->
  ufmm_setEnvironment (ufmm_new size inc) (Some g) = Ok (o, g0) ->
  ufmm_compute fuel (ufmm_setPoints o init goal) g0 = Ok r ->
  again ufmm_reset (ufmm_compute fuel) n r = Ok r.
Proof.
  intros g size inc init goal fuel o g0 [o1 g1] n Hf He Hc. injection He as <- <-. apply again_step. cbn [fst snd].
  match type of Hc with _ _ ?o _ = _ => destruct (ufmm_reset_compute size inc o o1 (clean g) g1 fuel (clean_flag g) (clean_default g Hf) eq_refl eq_refl Hc) as [o2 [A B]] end.
  exists o2, (clean g). auto.
Qed.

End C25.

(** DDQM: with average speed [a] and spacing [h] the threshold step is 1.5*h/a after
    setEnvironment() but 1.5*a*h after reset(): different unless a = 1. *)
Theorem C25_ddqm_reset_changes_the_threshold :
  forall (g g0 g1 g2 : grid XR) o o1 o2 fuel init goal a h,
  flag_is_true g -> g_leaf g = XFin h -> (0 < h)%R -> getAvgSpeed g0 = XFin a -> (0 < a)%R ->
  ddqm_setEnvironment ddqm_new (Some g) = Ok (o, g0) ->
  ddqm_compute fuel (ddqm_setPoints o init goal) g0 = Ok (o1, g1) ->
  ddqm_reset o1 g1 = Ok (o2, g2) ->
  g2 = g0 /\ do_step o = Some (XFin (3 / 2 * h / a)) /\ do_step o2 = Some (XFin (3 / 2 * (a * h))) /\
  (do_step o = do_step o2 <-> a = 1%R).
Proof.
  intros g g0 g1 g2 o o1 o2 fuel init goal a h Hf Hl Hh Ha Hap He Hc Hr.
  assert (Eo : o = mkDdqm (mkSolver GSet false [] None) (Some (ddqm_env_step (clean g))) (Some (ddqm_env_step (clean g))) [] [] /\ g0 = clean g)
    by (inversion He; auto).
  destruct Eo as [-> ->].
  unfold ddqm_compute, ensure_setup in Hc. cbn [do_s ddqm_setPoints ddqm_new setInitialAndGoalPoints new_solver sv_grid sv_setup do_th do_step do_q0 do_q1] in Hc.
  apply bind_ok in Hc. destruct Hc as [[s1 gb] [H1 Hc]]. apply bind_ok in Hc. destruct Hc as [k [Hk Hc]]. apply bind_ok in Hc. destruct Hc as [[[r q0] q1] [Hrun Hc]]. apply ddqm_resume_run in Hrun.
  injection Hc as <- <-. pose proof (solver_setup_ok _ _ _ _ H1) as [Es1 [Eg1 _]].
  pose proof (ddqm_run_frame (fun i => In i (sv_init s1)) _ _ _ _ _ _ _ (fun i Hi => Hi) Hrun) as HF. rewrite Eg1 in HF.
  pose proof (clean_after _ _ _ (clean_flag g) (clean_default g Hf) HF) as Ecl.
  unfold ddqm_reset, solver_reset in Hr. cbn [do_s] in Hr. rewrite Es1 in Hr. cbn [sv_grid bind] in Hr. rewrite Ecl in Hr.
  assert (Er : do_step o2 = Some (ddqm_reset_step (clean g)) /\ g2 = clean g) by (inversion Hr; auto). destruct Er as [Er ->]. rewrite Er.
  cbn [do_step].
  assert (Hl' : g_leaf (clean g) = XFin h) by (unfold clean; destruct (negb (g_clean g)); exact Hl).
  assert (E1 : ddqm_env_step (clean g) = XFin (3 / 2 * h / a)).
  { unfold ddqm_env_step. rewrite Ha, Hl'. cbn. unfold Reqb. destruct (Req_EM_T 2 0); [lra|]. cbn. unfold Reqb. destruct (Req_EM_T a 0); [lra|]. reflexivity. }
  assert (E2 : ddqm_reset_step (clean g) = XFin (3 / 2 * (a * h))).
  { unfold ddqm_reset_step. rewrite Ha, Hl'. cbn. unfold Reqb. destruct (Req_EM_T 2 0); [lra|]. cbn.
    unfold Reqb. destruct (Req_EM_T (a * h) 0) as [E|_]; [exfalso; nra|]. cbn.
    assert (Hne : (1 / (a * h) <> 0)%R) by (intros E; assert (a * h * (1 / (a * h)) = 0)%R by (rewrite E; ring); assert (a * h * (1 / (a * h)) = 1)%R by (field; nra); lra).
    unfold Reqb. destruct (Req_EM_T (1 / (a * h)) 0) as [E|_]; [contradiction|].
    f_equal. field. split; lra. }
  rewrite E1, E2. split; [reflexivity|]. split; [reflexivity|]. split; [reflexivity|]. split.
  - intros E. injection E as E. assert (h * (a * a) = h)%R.
    { assert (3 / 2 * h = 3 / 2 * (a * h) * a)%R by (rewrite <- E; field; lra). lra. }
    assert (a * a = 1)%R by nra. nra.
  - intros ->. f_equal. f_equal. field.
Qed.

(** *** all hypotheses are met: a 3x2 map of doubles with five velocities *)
Definition c25_grid : grid F64 := vgrid [3;2] (n1 : F64) [z64 1; z64 2; half64; z64 1; z64 1; z64 1].

Lemma vgrid_flag {N : Num} dims (leaf : N) vs : flag_is_true (vgrid dims leaf vs).
Proof.
  intros _ i c H. unfold getCell, vgrid in H. cbn [with_cells g_cells] in H. apply vget_ok in H. destruct H as [_ H].
  rewrite nth_error_map in H. destruct (nth_error (combine (zseq (length vs)) vs) (Z.to_nat i)) as [[j v]|]; [|discriminate].
  injection H as <-. repeat split.
Qed.

Definition runs {O : Type} (r : res (O * grid F64)) : bool :=
  match r with Ok (_, g) => match getArrivalTime g 5 with Ok t => negb (nisinf t) | _ => false end | _ => false end.

Example C25_case :
  flag_is_true c25_grid /\
  (exists r, fmm_compute RefHeap 50 (fmm_setPoints RefHeap (mkFmm (mkSolver GSet false [] None) (hempty RefHeap) NOHEUR [] false []) [0] (-1)) c25_grid = Ok r) /\
  (exists r, fsm_compute 50 (fsm_setPoints (mkFsm (mkSolver GSet false [] None) 0 1000 [] [3;2]) [0] (-1)) c25_grid = Ok r) /\
  (exists r, lsm_compute 50 (fsm_setPoints (mkFsm (mkSolver GSet false [] None) 0 1000 [] [3;2]) [0] (-1)) c25_grid = Ok r) /\
  (exists r, fim_compute 50 (fim_setPoints (mkFimObj (mkSolver GSet false [] None) [] n0) [0] (-1)) c25_grid = Ok r) /\
  (exists r, gmm_compute 50 (gmm_setPoints (mkGmmObj (mkSolver GSet false [] None) (nofZ (-1)) []) [0] (-1)) c25_grid = Ok r) /\
  (exists r, ufmm_compute 50 (ufmm_setPoints (mkUfmmObj (mkSolver GSet false [] None) (uq_new 1000 (nofZ 2))) [0] (-1)) c25_grid = Ok r).
Proof.
  split; [apply vgrid_flag|].
  assert (D : forall {O} (r : res (O * grid F64)), runs r = true -> exists x, r = Ok x).
  { intros O [x|] H; [exists x; reflexivity|discriminate]. }
  repeat (split; [apply D; vm_compute; reflexivity|]). apply D; vm_compute; reflexivity.
Qed.

(** ** C26 *)
Lemma clean_ok {N : Num} dims (g : grid N) : grid_ok dims g -> grid_ok dims (clean g).
Proof.
  intros Hg. unfold clean. destruct (negb (g_clean g)); [|exact Hg]. destruct Hg as [G1 G2]. split; [exact G1|]. cbn [g_cells]. rewrite map_length. exact G2.
Qed.

Lemma frozen_copy_frozen {N : Num} (g : grid N) : all_frozen (frozen_copy g).
Proof.
  intros i c H. unfold getCell, frozen_copy, with_cells in H. cbn [g_cells] in H. apply vget_ok in H. destruct H as [_ H].
  rewrite nth_error_map in H. destruct (nth_error (g_cells g) (Z.to_nat i)); [|discriminate]. injection H as <-. reflexivity.
Qed.

Lemma frozen_copy_time {N : Num} (g : grid N) i : getArrivalTime (frozen_copy g) i = getArrivalTime g i.
Proof.
  unfold getArrivalTime, getCell, vget, frozen_copy, with_cells. cbn [g_cells]. destruct (0 <=? i); [|reflexivity].
  rewrite nth_error_map. destruct (nth_error (g_cells g) (Z.to_nat i)); reflexivity.
Qed.

Section C26.
Context {N : Num}.

(** what LSM leaves behind: a grid flagged clean, every time infinite, every cell FROZEN *)
Lemma lsm_leaves dims (g : grid N) maxSweeps init goal fuel o g0 o1 g1 o2 g2 :
  proper dims -> box_size dims < 4294967296 -> grid_ok dims g -> flag_is_true g ->
  fsm_setEnvironment (fsm_new maxSweeps) (Some g) = Ok (o, g0) ->
  lsm_compute fuel (fsm_setPoints o init goal) g0 = Ok (o1, g1) ->
  lsm_reset o1 g1 = Ok (o2, g2) -> g2 = frozen_copy (clean g).
Proof.
  intros Hp Hlt Hg Hf He Hc Hr. injection He as <- <-. pose proof (clean_ok _ _ Hg) as Hg'.
  match type of Hc with _ _ ?o _ = _ =>
    destruct (lsm_reset_compute dims o o1 (clean g) g1 fuel Hp Hlt Hg' (clean_flag g) (clean_default g Hf) eq_refl eq_refl Hc) as [o3 [A B]] end.
  rewrite A in Hr. injection Hr as <- <-. reflexivity.
Qed.

(** After LSM has computed and been reset on a map, the grid claims to be clean, and FMM
    started on it - given this grid by setEnvironment(), or having it already and reset(),
    with any heap, heuristic, sources and goal - leaves every cell that is not a source at
    infinity. *)
Theorem C26_fmm_after_lsm_computes_nothing :
  forall (HO : HeapOps N) dims (g : grid N) maxSweeps init goal fuel o g0 o1 g1 o2 g2,
  proper dims -> box_size dims < 4294967296 -> grid_ok dims g -> flag_is_true g ->
  fsm_setEnvironment (fsm_new maxSweeps) (Some g) = Ok (o, g0) ->
  lsm_compute fuel (fsm_setPoints o init goal) g0 = Ok (o1, g1) ->
  lsm_reset o1 g1 = Ok (o2, g2) ->
  g_clean g2 = true /\
  forall (p q p1 : fmm_obj HO) g3 init2 goal2 fuel2 g4,
  fmm_setEnvironment HO p (Some g2) = Ok (q, g3) \/ fmm_reset HO p g2 = Ok (q, g3) ->
  fmm_compute HO fuel2 (fmm_setPoints HO q init2 goal2) g3 = Ok (p1, g4) ->
  forall i, 0 <= i < box_size dims -> ~ In i init2 -> time_is g4 i ninf.
Proof.
  intros HO dims g ms init goal fuel o g0 o1 g1 o2 g2 Hp Hlt Hg Hf He Hc Hr.
  pose proof (lsm_leaves dims g ms init goal fuel o g0 o1 g1 o2 g2 Hp Hlt Hg Hf He Hc Hr) as ->.
  assert (Hcl : g_clean (frozen_copy (clean g)) = true) by (cbn; apply clean_flag).
  split; [exact Hcl|]. intros p q p1 g3 init2 goal2 fuel2 g4 Hs H i Hi Hni.
  assert (Eg : g3 = frozen_copy (clean g)).
  { assert (Ecl : clean (frozen_copy (clean g)) = frozen_copy (clean g)) by (unfold clean at 1; rewrite Hcl; reflexivity).
    destruct Hs as [Hs|Hs].
    - unfold fmm_setEnvironment, setEnvironment in Hs. cbn [bind] in Hs. injection Hs as _ <-. exact Ecl.
    - unfold fmm_reset, solver_reset in Hs. destruct (sv_grid (fo_s p)); try discriminate. cbn [bind] in Hs. injection Hs as _ <-. exact Ecl. }
  subst g3. unfold fmm_compute in H. apply bind_ok in H. destruct H as [[oa ga] [Ha H]]. apply bind_ok in H. destruct H as [k [_ H]].
  apply bind_ok in H. destruct H as [[st log] [Hrun H]]. injection H as <- <-.
  assert (F : all_frozen ga /\ (forall j, getArrivalTime ga j = getArrivalTime (clean g) j) /\ sv_init (fo_s oa) = init2).
  { set (oq := fmm_setPoints HO q init2 goal2) in *. assert (Ei : sv_init (fo_s oq) = init2) by reflexivity.
    destruct (sv_setup (fo_s oq)).
    - injection Ha as <- <-. split; [apply frozen_copy_frozen|]. split; [apply frozen_copy_time|exact Ei].
    - destruct (fmm_setup_cases _ _ _ _ _ Ha) as [s1 [kk [H1 [_ Hcs]]]]. pose proof (solver_setup_ok _ _ _ _ H1) as [Es1 [Eg1 _]].
      rewrite Eg1. split; [exact (frozen_copy_frozen (clean g))|]. split; [exact (frozen_copy_time (clean g))|].
      assert (Eo : fo_s oa = s1) by (destruct Hcs as [[_ ->]|[[_ [_ ->]]|[_ [_ [gc [d [_ [_ ->]]]]]]]]; reflexivity).
      rewrite Eo, Es1. exact Ei. }
  destruct F as [F1 [F2 F3]]. rewrite F3 in Hrun.
  unfold time_is. rewrite (fmm_run_frozen HO _ _ _ _ _ _ _ _ F1 Hrun i Hni), F2.
  destruct (getCell_in dims (clean g) i (clean_ok _ _ Hg) Hi) as [c Hcc].
  unfold getArrivalTime. rewrite Hcc. cbn [bind]. destruct (clean_default g Hf i c Hcc) as [-> _]. reflexivity.
Qed.

(** ... and it does run: with every narrow band that keeps its content the call returns (it is not rejected). *)
Theorem C26_fmm_after_lsm_returns :
  forall (HO : HeapOps N) (BL : BagLaws HO) dims (g : grid N) init fuel goal,
  proper dims -> 2 * box_size dims <= 4294967296 -> grid_ok dims g -> all_frozen g ->
  (forall i, In i init -> 0 <= i < box_size dims) -> (length init < fuel)%nat ->
  exists st log, fmm_run HO fuel no_heur goal init g (hempty HO) = Ok (st, log).
Proof.
  intros HO BL dims g init fuel goal Hp Hlt Hg Hfr Hin Hfuel.
  assert (A : forall l st, (forall i, In i l -> 0 <= i < box_size dims) -> grid_ok dims (fs_g st) -> all_frozen (fs_g st) -> bwf BL (fs_h st) ->
     (forall i, In i (helems HO (fs_h st)) -> 0 <= i < box_size dims) ->
     exists st', foldM (fmm_init1 HO no_heur) l st = Ok st' /\ grid_ok dims (fs_g st') /\ all_frozen (fs_g st') /\ bwf BL (fs_h st') /\
       (forall i, In i (helems HO (fs_h st')) -> 0 <= i < box_size dims) /\ length (helems HO (fs_h st')) = (length l + length (helems HO (fs_h st)))%nat).
  { induction l as [|i l IH]; intros st Hl G F W R; cbn [foldM]; [exists st; auto 10|].
    destruct (getCell_in dims (fs_g st) i G (Hl i (or_introl eq_refl))) as [c Hc].
    unfold fmm_init1. destruct (setArrivalTime (fs_g st) i n0) as [g1|] eqn:E1.
    2:{ unfold setArrivalTime, updCell in E1. rewrite Hc in E1. discriminate. }
    cbn [bind fmm_heur no_heur fc_strat]. destruct (bl_push HO BL (key g1) i (fs_h st) W) as [W1 [P1 _]].
    destruct (updCell_fields _ _ _ _ E1) as [U1 [_ [_ [_ U5]]]].
    destruct (IH (mkFst g1 (hpush HO (key g1) i (fs_h st)))) as [st' [B1 [B2 [B3 [B4 [B5 B6]]]]]]; cbn [fs_g fs_h].
    - intros j Hj. apply Hl. right; exact Hj.
    - destruct G as [G1 G2]. split; [congruence|]. rewrite U5. exact G2.
    - eapply upd_frozen; [|exact F|exact E1]; auto.
    - exact W1.
    - intros j Hj. apply (Permutation_in _ P1) in Hj. destruct Hj as [<-|Hj]; [apply Hl; left; reflexivity|auto].
    - exists st'. split; [exact B1|]. do 3 (split; [assumption|]). split; [assumption|].
      cbn [fs_h] in B6. rewrite B6, (Permutation_length P1). cbn. lia. }
  destruct (A init (mkFst g (hempty HO)) Hin Hg Hfr (proj1 (bl_empty HO BL))) as [st [B1 [B2 [B3 [B4 [B5 B6]]]]]].
  { cbn [fs_h]. rewrite (proj2 (bl_empty HO BL)). intros i []. }
  unfold fmm_run. rewrite B1. cbn [bind]. cbn [fs_h] in B6. rewrite (proj2 (bl_empty HO BL)), Nat.add_0_r in B6. rewrite <- B6 in Hfuel.
  clear A B1 B6 Hfr Hg Hin. revert st B2 B3 B4 B5 Hfuel. generalize (@nil Z) as log. induction fuel as [|fuel IH]; intros log st B2 B3 B4 B5 Hf; [lia|].
  cbn [fmm_loop]. unfold fmm_step. destruct (hpop HO (key (fs_g st)) (fs_h st)) as [[m h1]|] eqn:Ep; [|cbn [bind]; eauto].
  destruct (bl_pop HO BL _ _ _ _ B4 Ep) as [W [P _]].
  assert (Hm : 0 <= m < box_size dims) by (apply B5, (Permutation_in _ (Permutation_sym P)); left; reflexivity).
  rewrite (proj1 B2), (getNeighbors_eq dims m Hp Hlt Hm). cbn [bind].
  destruct (getCell_in dims (fs_g st) m B2 Hm) as [c Hc].
  destruct (setState (fs_g st) m FROZEN) as [g1|] eqn:E1.
  2:{ unfold setState, updCell in E1. rewrite Hc in E1. discriminate. }
  cbn [bind]. assert (F1 : all_frozen g1) by (eapply upd_frozen; [|exact B3|exact E1]; auto).
  destruct (updCell_fields _ _ _ _ E1) as [U1 [_ [_ [_ U5]]]].
  assert (G1 : grid_ok dims g1) by (destruct B2 as [Q1 Q2]; split; [congruence|rewrite U5; exact Q2]).
  assert (Hns : forall ns, (forall j, In j ns -> 0 <= j < box_size dims) -> foldM (fmm_neighbor HO no_heur) ns (mkFst g1 h1) = Ok (mkFst g1 h1)).
  { induction ns as [|j ns IHn]; intros Hj; cbn [foldM]; [reflexivity|]. unfold fmm_neighbor at 1. cbn [fs_g].
    destruct (getCell_in dims g1 j G1 (Hj j (or_introl eq_refl))) as [cj Hcj]. rewrite Hcj. cbn [bind]. rewrite (F1 j cj Hcj). cbn [fmstate_eqb orb bind].
    apply IHn. intros k Hk. apply Hj. right; exact Hk. }
  rewrite Hns by (intros j Hj; eapply nbrs_range; eauto). cbn [bind].
  destruct (m =? goal); [eauto|]. apply IH; cbn [fs_g fs_h]; auto.
  - intros i Hi. apply B5, (Permutation_in _ (Permutation_sym P)). right; exact Hi.
  - apply Permutation_length in P. cbn in P. lia.
Qed.
End C26.

Definition c26_chain : res (grid F64 * grid F64) :=
  '(o1, g1) <- lsm_compute 50 (fsm_setPoints (mkFsm (mkSolver GSet false [] None) 0 1000 [] [3;2]) [0] (-1)) c25_grid ;;
  '(o2, g2) <- lsm_reset o1 g1 ;;
  '(q, g3) <- fmm_setEnvironment RefHeap (fmm_new RefHeap NOHEUR) (Some g2) ;;
  '(_, g4) <- fmm_compute RefHeap 50 (fmm_setPoints RefHeap q [0] (-1)) g3 ;;
  Ok (g1, g4).

(** the hypotheses are met: LSM reaches cell 5, FMM afterwards does not *)
Example C26_case : exists g1 g4, c26_chain = Ok (g1, g4) /\
  (exists t, time_is g1 5 t /\ nisinf t = false) /\ (exists t, time_is g4 5 t /\ nisinf t = true).
Proof.
  assert (K : match c26_chain with Ok (g1, g4) => match getArrivalTime g1 5, getArrivalTime g4 5 with
     Ok t1, Ok t4 => negb (nisinf t1) && nisinf t4 | _, _ => false end | _ => false end = true) by (vm_compute; reflexivity).
  destruct c26_chain as [[g1 g4]|] eqn:E; [|discriminate K]. exists g1, g4. split; [reflexivity|].
  destruct (getArrivalTime g1 5) as [t1|] eqn:E1; [|discriminate K]. destruct (getArrivalTime g4 5) as [t4|] eqn:E4; [|discriminate K].
  apply andb_true_iff in K. destruct K as [K1 K2]. split; [exists t1|exists t4]; split; auto. apply negb_true_iff in K1. exact K1.
Qed.

(** ** C38 *)
(** the checks in the order of the messages; the first that applies wins, 0 otherwise *)
Fixpoint first_code (l : list (Z * Prop)) (n : Z) : Prop :=
  match l with
  | [] => n = 0
  | (c, P) :: r => (P /\ n = c) \/ (~ P /\ first_code r n)
  end.

Definition checks {N : Num} (g : grid N) (init : list Z) (goal : Z) : list (Z * Prop) :=
  [ (2, g_clean g = false);
    (3, init = []);
    (4, exists i, init = [i] /\ obstacle g i);
    (5, goal <> -1 /\ obstacle g goal);
    (6, In goal init) ].

Lemma s32_u32 z : 0 <= z < 4294967296 -> s32 (u32 z) = -1 <-> z = 4294967295.
Proof.
  intros H. unfold s32, u32. rewrite Z.mod_mod by lia. rewrite Z.mod_small by lia. destruct (Z.ltb_spec z 2147483648); lia.
Qed.
Lemma s32_inj a b : 0 <= a < 4294967296 -> 0 <= b < 4294967296 -> s32 a = s32 b -> a = b.
Proof.
  intros Ha Hb. unfold s32, u32. rewrite !Z.mod_small by lia. destruct (Z.ltb_spec a 2147483648), (Z.ltb_spec b 2147483648); lia.
Qed.

Section C38.
Context {N : Num}.

Lemma obstacle_dec dims (g : grid N) i : grid_ok dims g -> 0 <= i < box_size dims ->
  exists c, getCell g i = Ok c /\ (isOccupied c = true <-> obstacle g i).
Proof.
  intros Hg Hi. destruct (getCell_in dims g i Hg Hi) as [c Hc]. exists c. split; [exact Hc|]. split.
  - intros H. exists c. auto.
  - intros [c' [H1 H2]]. congruence.
Qed.

(** With a grid set, initial points and goal inside it (or no goal, -1), setup() selects
    the first check that applies, exits with status 1 then, and otherwise marks the grid
    dirty and the solver ready, keeping points and goal. *)
Theorem C38_setup_decides :
  forall dims (g : grid N) s init goal,
  proper dims -> box_size dims < 4294967296 -> grid_ok dims g -> sv_grid s = GSet ->
  (forall i, In i init -> 0 <= i < box_size dims) -> goal = -1 \/ 0 <= goal < box_size dims ->
  let s' := setInitialAndGoalPoints s init goal in
  exists code, sanityChecks s' g = Ok code /\ first_code (checks g init goal) code /\
    (code <> 0 -> solver_setup s' g = Fail (Exit 1)) /\
    (code = 0 -> exists s'', solver_setup s' g = Ok (s'', setClean g false) /\
       sv_setup s'' = true /\ sv_grid s'' = GSet /\ sv_init s'' = init /\ sv_goal s'' = Some (u32 goal)).
Proof.
  intros dims g s init goal Hp Hlt Hg Hs Hin Hgoal s'.
  assert (Hcode : exists code, sanityChecks s' g = Ok code /\ first_code (checks g init goal) code).
  { unfold sanityChecks. cbn [s' setInitialAndGoalPoints sv_grid sv_init]. rewrite Hs. unfold checks, first_code.
    destruct (g_clean g); cbn [negb]; [|exists 2; split; [reflexivity|left; auto]].
    destruct init as [|i0 more]; [exists 3; split; [reflexivity|right; split; [discriminate|left; auto]]|].
    assert (H4 : exists b4 : bool, (match more with [] => c <- getCell g i0 ;; Ok (isOccupied c) | _ => Ok false end) = Ok b4 /\
                 (b4 = true <-> exists i, i0 :: more = [i] /\ obstacle g i)).
    { destruct more as [|i1 more].
      - destruct (obstacle_dec dims g i0 Hg (Hin i0 (or_introl eq_refl))) as [c [Hc Ho]]. rewrite Hc. cbn [bind]. exists (isOccupied c). split; [reflexivity|].
        rewrite Ho. split; [eauto|]. intros [i [E H]]. injection E as ->. exact H.
      - exists false. split; [reflexivity|]. split; [discriminate|]. intros [i [E _]]. discriminate. }
    destruct H4 as [b4 [E4 H4]]. rewrite E4. cbn [bind].
    destruct b4.
    { exists 4. split; [reflexivity|]. right; split; [discriminate|]. right; split; [discriminate|]. left. split; [apply H4; reflexivity|reflexivity]. }
    unfold goal_of, s', setInitialAndGoalPoints. cbn [sv_goal bind].
    assert (Hu : u32 goal = if goal =? -1 then 4294967295 else goal).
    { destruct (Z.eqb_spec goal (-1)) as [->|]; [reflexivity|]. unfold u32. apply Z.mod_small. lia. }
    assert (H5 : exists b5 : bool, (if negb (s32 (u32 goal) =? -1) then c <- getCell g (u32 goal) ;; Ok (isOccupied c) else Ok false) = Ok b5 /\
                 (b5 = true <-> (goal <> -1 /\ obstacle g goal))).
    { destruct Hgoal as [->|Hr].
      - change (s32 (u32 (-1)) =? -1) with true. cbn [negb]. exists false. split; [reflexivity|]. split; [discriminate|]. intros [H _]. congruence.
      - assert (Ez : goal =? -1 = false) by (apply Z.eqb_neq; lia). rewrite Ez in Hu. rewrite Hu.
        destruct (Z.eqb_spec (s32 goal) (-1)) as [E|E].
        + rewrite <- Hu in E. apply s32_u32 in E; lia.
        + cbn [negb]. destruct (obstacle_dec dims g goal Hg Hr) as [c [Hc Ho]]. rewrite Hc. cbn [bind]. exists (isOccupied c). split; [reflexivity|].
          rewrite Ho. split; [intros H; split; [lia|exact H]|tauto]. }
    destruct H5 as [b5 [E5 H5]]. rewrite E5. cbn [bind].
    assert (N4 : ~ exists i, i0 :: more = [i] /\ obstacle g i) by (intros H; apply H4 in H; discriminate).
    destruct b5.
    { exists 5. split; [reflexivity|]. right; split; [discriminate|]. right; split; [discriminate|]. right; split; [exact N4|]. left. split; [apply H5; reflexivity|reflexivity]. }
    assert (N5 : ~ (goal <> -1 /\ obstacle g goal)) by (intros H; apply H5 in H; discriminate).
    assert (H6 : existsb (fun i => s32 (u32 goal) =? s32 i) (i0 :: more) = true <-> In goal (i0 :: more)).
    { rewrite existsb_exists. split.
      - intros [x [Hx E]]. apply Z.eqb_eq in E. pose proof (Hin x Hx) as Hxr. apply s32_inj in E; [|rewrite Hu; destruct (goal =? -1) eqn:?; lia|lia].
        rewrite Hu in E. destruct (Z.eqb_spec goal (-1)) as [->|Hne]; [lia|]. subst. exact Hx.
      - intros Hx. exists goal. split; [exact Hx|]. pose proof (Hin goal Hx). apply Z.eqb_eq. rewrite Hu. destruct (Z.eqb_spec goal (-1)); [lia|reflexivity]. }
    destruct (existsb _ (i0 :: more)).
    - exists 6. split; [reflexivity|]. right; split; [discriminate|]. right; split; [discriminate|]. right; split; [exact N4|]. right; split; [exact N5|].
      left. split; [apply H6; reflexivity|reflexivity].
    - exists 0. split; [reflexivity|]. right; split; [discriminate|]. right; split; [discriminate|]. right; split; [exact N4|]. right; split; [exact N5|].
      right. split; [|reflexivity]. intros H. apply H6 in H. discriminate. }
  destruct Hcode as [code [E F]]. exists code. split; [exact E|]. split; [exact F|]. unfold solver_setup. rewrite E. cbn [bind]. split.
  - intros Hne. destruct (Z.eqb_spec code 0); [contradiction|reflexivity].
  - intros ->. cbn [Z.eqb negb]. eexists. split; [reflexivity|]. cbn. rewrite Hs. auto.
Qed.

(** ... so it exits exactly in these cases *)
Theorem C38_setup_exits_iff :
  forall dims (g : grid N) s init goal,
  proper dims -> box_size dims < 4294967296 -> grid_ok dims g -> sv_grid s = GSet ->
  (forall i, In i init -> 0 <= i < box_size dims) -> goal = -1 \/ 0 <= goal < box_size dims ->
  (solver_setup (setInitialAndGoalPoints s init goal) g = Fail (Exit 1) <->
   g_clean g = false \/ init = [] \/ (exists i, init = [i] /\ obstacle g i) \/ (goal <> -1 /\ obstacle g goal) \/ In goal init).
Proof.
  intros dims g s init goal Hp Hlt Hg Hs Hin Hgoal.
  destruct (C38_setup_decides dims g s init goal Hp Hlt Hg Hs Hin Hgoal) as [code [E [F [A B]]]]. split.
  - intros H. destruct (Z.eq_dec code 0) as [->|Hne]; [destruct (B eq_refl) as [s'' [B1 _]]; congruence|].
    cbn in F. tauto.
  - intros H. apply A. intros ->. cbn in F. destruct F as [[F F']|[F1 [[F F']|[F2 [[F F']|[F3 [[F F']|[F4 [[F F']|[F5 _]]]]]]]]]]; try discriminate.
    destruct H as [H|[H|[H|[H|H]]]]; [apply F1|apply F2|apply F3|apply F4|apply F5]; exact H.
Qed.

(** No grid: a null pointer is reported (check 1), but setEnvironment() itself
    dereferences it, and a solver that was never given a grid reads an uninitialised
    pointer. *)
Theorem C38_missing_grid :
  forall (g : grid N) init goal,
  solver_setup (setInitialAndGoalPoints (mkSolver GNull false [] None) init goal) g = Fail (Exit 1) /\
  setEnvironment (N := N) new_solver None = Fail UB /\
  solver_setup (setInitialAndGoalPoints new_solver init goal) g = Fail UB.
Proof. intros. repeat split. Qed.

(** Not checked: with several initial points any of them may be occupied or outside the
    grid; a goal or a single initial point outside the grid is read out of bounds. *)
Theorem C38_not_checked :
  forall dims (g : grid N) s i j more,
  proper dims -> box_size dims < 4294967296 -> grid_ok dims g -> sv_grid s = GSet -> g_clean g = true ->
  (forall k, In k (i :: j :: more) -> 0 <= k < 4294967295) ->
  (exists s'', solver_setup (setInitialPoints s (i :: j :: more)) g = Ok (s'', setClean g false)) /\
  (forall k, box_size dims <= k < 4294967296 -> solver_setup (setInitialPoints s [k]) g = Fail UB) /\
  (forall k, box_size dims <= k < 4294967295 -> solver_setup (setInitialAndGoalPoints s (i :: j :: more) k) g = Fail UB).
Proof.
  intros dims g s i j more Hp Hlt Hg Hs Hcl Hr.
  assert (OOB : forall k, box_size dims <= k -> getCell g k = Fail UB).
  { intros k Hk. unfold getCell, vget. destruct (0 <=? k) eqn:E; [|reflexivity].
    destruct (nth_error (g_cells g) (Z.to_nat k)) eqn:En; [|reflexivity]. exfalso.
    assert ((Z.to_nat k < length (g_cells g))%nat) by (apply nth_error_Some; congruence). destruct Hg as [_ Hg]. pose proof (box_size_pos _ Hp). lia. }
  unfold solver_setup, sanityChecks, setInitialPoints, setInitialAndGoalPoints, goal_of. cbn [sv_grid sv_init sv_goal]. rewrite Hs, Hcl. cbn [negb bind]. split; [|split].
  - change (s32 (u32 (-1)) =? -1) with true. cbn [negb bind].
    assert (E : existsb (fun i => s32 (u32 (-1)) =? s32 i) (i :: j :: more) = false).
    { apply not_true_is_false. intros H. apply existsb_exists in H. destruct H as [x [Hx H]]. apply Z.eqb_eq in H. pose proof (Hr x Hx).
      apply s32_inj in H; [|unfold u32; cbn; lia|lia]. unfold u32 in H. cbn in H. lia. }
    rewrite E. cbn [Z.eqb negb bind]. eexists. reflexivity.
  - intros k Hk. rewrite OOB by lia. reflexivity.
  - intros k Hk. assert (Eu : u32 k = k) by (unfold u32; apply Z.mod_small; pose proof (box_size_pos _ Hp); lia). rewrite Eu.
    destruct (Z.eqb_spec (s32 k) (-1)) as [E|E]; [rewrite <- Eu in E; apply s32_u32 in E; pose proof (box_size_pos _ Hp); lia|]. cbn [negb].
    rewrite OOB by lia. reflexivity.
Qed.
End C38.

Example C38_case : proper [3;2] /\ box_size [3;2] < 4294967296 /\ grid_ok [3;2] c25_grid /\ g_clean c25_grid = true.
Proof. split; [repeat (constructor; [lia|]); constructor|]. split; [cbn; lia|]. split; [|reflexivity]. refine (proj1 (vgrid_clean (N := F64) [3;2] n1 [z64 1; z64 2; half64; z64 1; z64 1; z64 1] _)). reflexivity. Qed.

(** ** C39 *)
Section C39.
Context {N : Num}.

(** setInitialPoints stores the sentinel, which is no index of a grid of fewer than 2^32
    cells ... *)
Theorem C39_no_cell_is_the_goal :
  forall s init k, goal_of (setInitialPoints s init) = Ok k ->
  forall dims (g : grid N) i, box_size dims < 4294967296 -> grid_ok dims g -> 0 <= i < box_size dims -> i <> k.
Proof.
  intros s init k H dims g i Hlt _ Hi. injection H as <-. unfold u32. cbn. lia.
Qed.

(** ... so compute() only returns when there is nothing left to do: the narrow band
    (list, queues) is empty, or the sweeps have converged or reached their limit. *)
Theorem C39_runs_never_stop_early :
  forall dims (g : grid N) s init k, box_size dims < 4294967296 -> grid_ok dims g -> goal_of (setInitialPoints s init) = Ok k ->
  (forall (HO : HeapOps N) fuel cfg h0 st log, fmm_run HO fuel cfg k init g h0 = Ok (st, log) -> hpop HO (key (fs_g st)) (fs_h st) = None) /\
  (forall fuel ms sw incs r n i, fsm_run fuel ms k init sw incs g = Ok (r, n, i) -> sw_stop r = false /\ (sw_keep r = false \/ ms <= n)) /\
  (forall fuel ms sw incs r n i, lsm_run fuel ms k init sw incs g = Ok (r, n, i) -> sw_stop r = false /\ (sw_keep r = false \/ ms <= n)) /\
  (forall fuel th step r, ddqm_run fuel k init th step g = Ok r -> dq_lo r = [] /\ dq_hi r = [] /\ dq_stop r = false) /\
  (forall fuel E g' l ub, fim_run fuel E k init g = Ok (g', l, ub) -> l = []) /\
  (forall fuel dt r, gmm_run fuel dt k init g = Ok r -> gm_l r = []) /\
  (forall fuel q r log, ufmm_run fuel k init g q = Ok (r, log) -> uq_empty (uf_q r) = true).
Proof.
  intros dims g s init k Hlt [Hs Hl] Hk. assert (Ek : k = noGoal) by (injection Hk as <-; reflexivity). subst k. clear Hk.
  assert (S : small g) by (unfold small; rewrite Hl; exact Hlt).
  split; [intros; eapply fmm_run_no_goal; eauto|]. split; [intros; eapply fsm_run_no_goal; eauto|]. split; [intros; eapply lsm_run_no_goal; eauto|].
  split; [intros; eapply ddqm_run_no_goal; eauto|]. split; [intros; eapply fim_run_no_goal; eauto|]. split; [intros; eapply gmm_run_no_goal; eauto|].
  intros; eapply ufmm_run_no_goal; eauto.
Qed.
End C39.

Print Assumptions C25_fmm_reusable. Print Assumptions C25_fsm_reusable. Print Assumptions C25_lsm_reusable. Print Assumptions C25_fim_reusable.
Print Assumptions C25_gmm_reusable. Print Assumptions C25_ufmm_reusable. Print Assumptions C25_ddqm_reset_changes_the_threshold.
Print Assumptions C26_fmm_after_lsm_computes_nothing. Print Assumptions C26_fmm_after_lsm_returns.
Print Assumptions C38_setup_decides. Print Assumptions C38_setup_exits_iff. Print Assumptions C38_missing_grid. Print Assumptions C38_not_checked.
Print Assumptions C39_no_cell_is_the_goal. Print Assumptions C39_runs_never_stop_early.

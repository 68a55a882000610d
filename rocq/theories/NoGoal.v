(** NoGoal.v - a run without a goal never stops early (C39), and FMM on a grid whose
    cells are all FROZEN does nothing (C26): proofs. *)
From Coq Require Import Permutation.
From Verif Require Import Base BaseFacts Num NumLaws Grid GridFacts GridUpd Spec Obs Eikonal FMMModel HeapLaws SweepModel QueueModel
  UntidyModel Frame.
Open Scope Z_scope.

Section NG.
Context {N : Num}.
Implicit Types g : grid N.

(** fewer than 2^32 cells *)
Definition small g : Prop := Z.of_nat (length (g_cells g)) < 4294967296.

Lemma frame_small I g g' : frame I g g' -> small g -> small g'.
Proof. intros [_ [_ [_ [_ [H _]]]]]. unfold small. rewrite H. auto. Qed.

Lemma upd_small g i f g' : updCell g i f = Ok g' -> small g -> small g'.
Proof. intros H. destruct (updCell_fields _ _ _ _ H) as [_ [_ [_ [_ H5]]]]. unfold small. rewrite H5. auto. Qed.

Lemma get_small g i c : small g -> getCell g i = Ok c -> (i =? noGoal) = false.
Proof.
  intros Hs H. unfold getCell in H. apply vget_ok in H. destruct H as [H0 H1].
  assert ((Z.to_nat i < length (g_cells g))%nat) by (apply nth_error_Some; congruence).
  unfold small in Hs. apply Z.eqb_neq. unfold noGoal. lia.
Qed.

Lemma upd_goal g i f g' : small g -> updCell g i f = Ok g' -> (i =? noGoal) = false.
Proof. intros Hs H. unfold updCell in H. apply bind_ok in H. destruct H as [c [Hc _]]. exact (get_small _ _ _ Hs Hc). Qed.

(** *** FMM *)
Section Heap.
Variable HO : HeapOps N.

Lemma fmm_step_not_goal cfg st m st' : small (fs_g st) -> fmm_step HO cfg st = Ok (Some (m, st')) -> (m =? noGoal) = false.
Proof.
  intros Hs H. unfold fmm_step in H. destruct (hpop HO _ _) as [[m0 h1]|]; [|discriminate]. invb.
  exact (upd_goal _ _ _ _ Hs E0).
Qed.

Lemma fmm_loop_no_goal fuel cfg : forall st log st' log', small (fs_g st) ->
  fmm_loop HO fuel cfg noGoal st log = Ok (st', log') -> hpop HO (key (fs_g st')) (fs_h st') = None.
Proof.
  induction fuel as [|k IH]; intros st log st' log' Hs H; cbn in H; [discriminate|].
  apply bind_ok in H. destruct H as [[[m s1]|] [H1 H]].
  - rewrite (fmm_step_not_goal _ _ _ _ Hs H1) in H. eapply IH; [|exact H].
    pose proof (fmm_step_frame (fun _ => True) HO _ _ _ H1) as HF. cbn in HF. exact (frame_small _ _ _ HF Hs).
  - injection H as <- <-. unfold fmm_step in H1. destruct (hpop HO _ _) as [[m0 h1]|]; [|reflexivity]. invb; discriminate.
Qed.

Lemma fmm_run_no_goal fuel cfg init g h0 st log : small g ->
  fmm_run HO fuel cfg noGoal init g h0 = Ok (st, log) -> hpop HO (key (fs_g st)) (fs_h st) = None.
Proof.
  intros Hs H. unfold fmm_run in H. apply bind_ok in H. destruct H as [s0 [H0 H]].
  refine (fmm_loop_no_goal _ _ _ _ _ _ _ H).
  refine (foldM_inv_partial (fun s => small (fs_g s)) _ _ _ _ _ _ H0); [exact Hs|].
  intros s i s1 _ HP Hi. unfold fmm_init1 in Hi. invb. cbn [fs_g].
  exact (frame_small _ _ _ (fmm_heur_frame (fun _ => True) cfg _ _ _ E0) (upd_small _ _ _ _ E HP)).
Qed.

(** *** FMM on frozen cells *)
Definition all_frozen g : Prop := forall i c, getCell g i = Ok c -> c_state c = FROZEN.

Lemma frozen_neighbors cfg ns : forall st st', all_frozen (fs_g st) -> foldM (fmm_neighbor HO cfg) ns st = Ok st' -> st' = st.
Proof.
  induction ns as [|j ns IH]; intros st st' Hf H; cbn in H; [congruence|]. apply bind_ok in H. destruct H as [s1 [H1 H]].
  unfold fmm_neighbor in H1. apply bind_ok in H1. destruct H1 as [c [Hc H1]]. rewrite (Hf _ _ Hc) in H1. cbn in H1. injection H1 as <-. eauto.
Qed.

(** everything that is not an initial point keeps its time *)
Definition untouched (init : list Z) g g' : Prop :=
  forall i, ~ In i init -> getArrivalTime g' i = getArrivalTime g i.

Lemma upd_time_other g i t g' j : setArrivalTime g i t = Ok g' -> j <> i -> getArrivalTime g' j = getArrivalTime g j.
Proof.
  intros H Hne. unfold getArrivalTime. rewrite (updCell_get _ _ _ _ j H). destruct (Z.eqb_spec i j); [congruence|reflexivity].
Qed.

Lemma upd_keep_time g i f g' j : (forall c, c_val (f c) = c_val c) -> updCell g i f = Ok g' -> getArrivalTime g' j = getArrivalTime g j.
Proof.
  intros Hf H. unfold getArrivalTime. rewrite (updCell_get _ _ _ _ j H). destruct (Z.eqb_spec i j); [|reflexivity].
  destruct (getCell g j); cbn; [rewrite Hf|]; reflexivity.
Qed.

Lemma upd_frozen g i f g' : (forall c, c_state c = FROZEN -> c_state (f c) = FROZEN) -> all_frozen g -> updCell g i f = Ok g' -> all_frozen g'.
Proof.
  intros Hf Ha H j c Hc. rewrite (updCell_get _ _ _ _ j H) in Hc. destruct (i =? j); [|exact (Ha j c Hc)].
  destruct (getCell g j) as [c0|] eqn:E; [|discriminate]. injection Hc as <-. apply Hf, (Ha j c0 E).
Qed.

Lemma heur_keeps cfg g j g' : fmm_heur cfg g j = Ok g' -> all_frozen g -> all_frozen g' /\ forall i, getArrivalTime g' i = getArrivalTime g i.
Proof.
  unfold fmm_heur. intros H Ha. destruct (fc_strat cfg); [injection H as <-; auto| |]; invb;
    (split; [eapply upd_frozen; [|exact Ha|eassumption]; auto|intros i; eapply upd_keep_time; [|eassumption]; auto]).
Qed.

Lemma fmm_run_frozen fuel cfg goal init g h0 st log : all_frozen g ->
  fmm_run HO fuel cfg goal init g h0 = Ok (st, log) -> untouched init g (fs_g st).
Proof.
  intros Ha H. unfold fmm_run in H. apply bind_ok in H. destruct H as [s0 [H0 H]].
  assert (E0 : all_frozen (fs_g s0) /\ untouched init g (fs_g s0)).
  { refine (foldM_inv_partial (fun s => all_frozen (fs_g s) /\ untouched init g (fs_g s)) _ _ _ _ _ _ H0).
    - split; [exact Ha|]. intros i _. reflexivity.
    - intros s i s1 Hi [P1 P2] Hs. unfold fmm_init1 in Hs. invb. cbn [fs_g].
      assert (F1 : all_frozen x) by (eapply upd_frozen; [|exact P1|exact E]; auto).
      destruct (heur_keeps _ _ _ _ E0 F1) as [F2 F3]. split; [exact F2|]. intros j Hj. rewrite F3.
      rewrite (upd_time_other _ _ _ _ j E) by (intros ->; contradiction). apply P2, Hj. }
  destruct E0 as [E1 E2]. clear H0 Ha. revert s0 E1 E2 H. generalize (@nil Z) as l. induction fuel as [|k IH]; intros l s0 E1 E2 H; cbn in H; [discriminate|].
  apply bind_ok in H. destruct H as [[[m s1]|] [H1 H]].
  - assert (F : all_frozen (fs_g s1) /\ untouched init g (fs_g s1)).
    { unfold fmm_step in H1. destruct (hpop HO _ _) as [[m0 h1]|]; [|discriminate]. invb.
      assert (F1 : all_frozen x0) by (eapply upd_frozen; [|exact E1|exact E0]; auto).
      apply frozen_neighbors in E3; [|exact F1]. subst s1. cbn [fs_g]. split; [exact F1|].
      intros i Hi. rewrite (upd_keep_time (fs_g s0) m (fun c => with_state c FROZEN) x0 i (fun c => eq_refl) E0). apply E2, Hi. }
    destruct F as [F1 F2]. destruct (m =? goal); [injection H as <- <-; exact F2|]. eapply IH; [exact F1|exact F2|exact H].
  - injection H as <- <-. exact E2.
Qed.
End Heap.

(** *** sweeping *)
Definition sw_ok (s : sw_state (N := N)) : Prop := small (sw_g s) /\ sw_stop s = false.

Lemma fsm_solve_ok s i s' c : getCell (sw_g s) i = Ok c -> isOccupied c = false -> sw_ok s -> fsm_solveForIdx noGoal s i = Ok s' -> sw_ok s'.
Proof.
  intros Hc Ho [A B] H. split; [exact (frame_small _ _ _ (fsm_frames (fun _ => True) noGoal s i s' c Hc Ho H) A)|].
  unfold fsm_solveForIdx in H. invb. destruct (isTimeBetterThan x0 x); invb; [exact B|].
  rewrite (get_small _ _ _ A Hc), andb_false_r in H. invb. exact B.
Qed.

Lemma lsm_solve_ok s i s' c : getCell (sw_g s) i = Ok c -> isOccupied c = false -> sw_ok s -> lsm_solveForIdx noGoal s i = Ok s' -> sw_ok s'.
Proof.
  intros Hc Ho [A B] H. split; [exact (frame_small _ _ _ (lsm_frames (fun _ => True) noGoal s i s' c Hc Ho H) A)|].
  unfold lsm_solveForIdx in H. invb. destruct (fmstate_eqb (c_state x) OPEN); invb; [|exact B]. cbn.
  destruct (isTimeBetterThan x0 (c_val x)); invb; [exact B|].
  rewrite (get_small _ _ _ A Hc), andb_false_r in E1. invb. exact B.
Qed.

Lemma sweep_loop_ok solve fuel ms : (forall s i s' c, getCell (sw_g s) i = Ok c -> isOccupied c = false -> sw_ok s -> solve s i = Ok s' -> sw_ok s') ->
  forall sw incs s r, sw_ok s -> sweep_loop solve fuel ms sw incs s = Ok r -> sw_ok (fst (fst r)) /\ (sw_keep (fst (fst r)) = false \/ ms <= snd (fst r)).
Proof.
  intros Hsol. induction fuel as [|k IH]; intros sw incs s r Hs H; cbn in H;
    (destruct (sw_keep s && negb (sw_stop s) && (sw <? ms)) eqn:Ec).
  1: discriminate.
  1,3: injection H as <-; cbn [fst snd]; split; [exact Hs|]; destruct Hs as [_ Hs]; rewrite Hs in Ec; cbn in Ec;
    destruct (sw_keep s); [right; cbn in Ec; apply Z.ltb_ge in Ec; exact Ec|left; reflexivity].
  apply bind_ok in H. destruct H as [s1 [H1 H]]. eapply IH; [|exact H].
  unfold one_sweep in H1. refine (recIter_inv sw_ok _ _ _ _ _ _ _ H1).
  - intros s2 i s3 HP H2. unfold visit in H2. apply bind_ok in H2. destruct H2 as [c [Hc H2]].
    destruct (isOccupied c) eqn:Eo; [injection H2 as <-; exact HP|]. eapply Hsol; eauto.
  - exact Hs.
Qed.

Lemma fsm_run_no_goal fuel ms init sw incs g s n i : small g -> fsm_run fuel ms noGoal init sw incs g = Ok (s, n, i) ->
  sw_stop s = false /\ (sw_keep s = false \/ ms <= n).
Proof.
  intros Hs H. unfold fsm_run in H. apply bind_ok in H. destruct H as [g0 [H0 H]].
  destruct (sweep_loop_ok _ _ _ fsm_solve_ok _ _ _ _ (conj (foldM_inv_partial small _ _ _ _ Hs (fun s0 x s1 _ P Hu => upd_small _ _ _ _ Hu P) H0 : small (sw_g (mkSw g0 true false))) eq_refl) H) as [[_ A] B].
  split; [exact A|exact B].
Qed.

Lemma lsm_run_no_goal fuel ms init sw incs g s n i : small g -> lsm_run fuel ms noGoal init sw incs g = Ok (s, n, i) ->
  sw_stop s = false /\ (sw_keep s = false \/ ms <= n).
Proof.
  intros Hs H. unfold lsm_run in H. apply bind_ok in H. destruct H as [g0 [H0 H]]. apply bind_ok in H. destruct H as [g1 [H1 H]].
  assert (S0 : small g0) by exact (frame_small _ _ _ (freeze_all_frame (fun _ => True) _ _ H0) Hs).
  assert (S1 : small g1).
  { refine (foldM_inv_partial small _ _ _ _ S0 _ H1). intros ga x gb _ P Hu. unfold lsm_init1 in Hu. invb.
    refine (foldM_inv_partial small _ _ _ _ _ _ Hu); [exact (upd_small _ _ _ _ E P)|].
    intros gc y gd _ P' Hu'. exact (upd_small _ _ _ _ Hu' P'). }
  destruct (sweep_loop_ok _ _ _ lsm_solve_ok _ _ _ _ (conj (S1 : small (sw_g (mkSw g1 true false))) eq_refl) H) as [[_ A] B].
  split; [exact A|exact B].
Qed.

(** *** DDQM *)
Lemma ddqm_pop1_no_goal (s s' : dq_state (N := N)) idx : small (dq_g s) -> dq_stop s = false -> ddqm_pop1 noGoal s idx = Ok s' ->
  small (dq_g s') /\ dq_stop s' = false.
Proof.
  intros A B H. split; [exact (frame_small _ _ _ (ddqm_pop1_frame (fun _ => True) _ _ _ _ H) A)|].
  unfold ddqm_pop1 in H. invb. destruct (isOccupied x) eqn:Eo; invb; [exact B|]. cbn. rewrite (get_small _ _ _ A E), orb_false_r.
  destruct (isTimeBetterThan x0 (c_val x)); invb; [|exact B].
  refine (foldM_inv_partial (fun s : dq_state (N := N) => dq_stop s = false) _ _ _ _ _ _ E1); [exact B|].
  intros s2 n s3 _ P Hn. unfold ddqm_neighbor in Hn. invb.
  destruct (fmstate_eqb (c_state x5) FROZEN && isTimeBetterThan x0 (c_val x5)); invb; [|exact P].
  destruct (isTimeBetterThan x0 (dq_th s2)); invb; exact P.
Qed.

Lemma ddqm_loop_no_goal fuel : forall s s' : dq_state (N := N), small (dq_g s) -> dq_stop s = false -> ddqm_loop fuel noGoal s = Ok s' ->
  dq_lo s' = [] /\ dq_hi s' = [] /\ dq_stop s' = false.
Proof.
  induction fuel as [|k IH]; intros s s' A B H; cbn in H; [discriminate|]. rewrite B in H.
  destruct (dq_lo s) as [|idx q] eqn:El.
  - destruct (dq_hi s) eqn:Eh; [injection H as <-; repeat split|]. eapply IH; [| |exact H]; [exact A|reflexivity].
  - apply bind_ok in H. destruct H as [s1 [H1 H]].
    destruct (ddqm_pop1_no_goal _ _ _ (A : small (dq_g (mkDq (dq_g s) q (dq_hi s) (dq_th s) (dq_step s) (dq_c0 s) (dq_c1 s) false))) eq_refl H1) as [A1 B1].
    exact (IH _ _ A1 B1 H).
Qed.

Lemma ddqm_run_no_goal fuel init th step g s : small g -> ddqm_run fuel noGoal init th step g = Ok s ->
  dq_lo s = [] /\ dq_hi s = [] /\ dq_stop s = false.
Proof.
  intros Hs H. unfold ddqm_run in H. apply bind_ok in H. destruct H as [g0 [H0 H]]. apply bind_ok in H. destruct H as [[g1 q] [H1 H]].
  assert (S0 : small g0) by exact (frame_small _ _ _ (freeze_all_frame (fun _ => True) _ _ H0) Hs).
  assert (S1 : small g1).
  { refine (foldM_inv_partial (fun s : grid N * list Z => small (fst s)) _ _ _ (g1, q) _ _ H1); [exact S0|].
    intros [ga qa] x gb _ P Hu. unfold ddqm_init1 in Hu. invb.
    refine (foldM_inv_partial (fun s : grid N * list Z => small (fst s)) _ _ _ _ _ _ Hu); [exact (upd_small _ _ _ _ E P)|].
    intros [gc qc] y gd _ P' Hu'. invb. destruct (isOccupied x2); invb; [exact P'|]. exact (upd_small _ _ _ _ E2 P'). }
  destruct q as [|a q]; [injection H as <-; repeat split|].
  exact (ddqm_loop_no_goal _ _ _ (S1 : small (dq_g (mkDq g1 (a :: q) [] th step 0 0 false))) eq_refl H).
Qed.

(** *** FIM *)
Lemma fim_neighbor_small s j s' : small (fst s) -> fim_neighbor s j = Ok s' -> small (fst (s' : grid N * list Z)).
Proof.
  destruct s as [g ins]. unfold fim_neighbor. cbn [fst]. intros P H. invb.
  destruct (negb (fmstate_eqb (c_state x) NARROW) && negb (isOccupied x)); invb; [|exact P].
  destruct (isTimeBetterThan x0 (c_val x)); invb; [|exact P]. cbn. exact (upd_small _ _ _ _ E2 (upd_small _ _ _ _ E1 P)).
Qed.

Lemma fim_pass_no_goal E after : forall g before ub r, small g -> fim_pass E noGoal g before after false ub = Ok r ->
  small (fst (fst (fst r))) /\ snd (fst r) = false.
Proof.
  induction after as [|x l IH]; intros g before ub r P H; cbn [fim_pass] in H.
  - injection H as <-. cbn. auto.
  - apply bind_ok in H. destruct H as [p [Hp H]]. apply bind_ok in H. destruct H as [q [Hq H]]. apply bind_ok in H. destruct H as [g1 [H1 H]].
    assert (P1 : small g1) by exact (upd_small _ _ _ _ H1 P). pose proof (upd_goal _ _ _ _ P H1) as Hx.
    destruct (nleb _ _); [|exact (IH _ _ _ _ P1 H)].
    apply bind_ok in H. destruct H as [ns [Hns H]]. apply bind_ok in H. destruct H as [[g2 ins] [H2 H]]. apply bind_ok in H. destruct H as [g3 [H3 H]].
    rewrite Hx in H. cbn [orb] in H. refine (IH _ _ _ _ _ H). refine (upd_small _ _ _ _ H3 _).
    refine (foldM_inv_partial (fun s : grid N * list Z => small (fst s)) _ _ _ (g2, ins) _ _ H2); [exact P1|].
    intros s y s1 _ P' Hu. exact (fim_neighbor_small _ _ _ P' Hu).
Qed.

Lemma fim_loop_no_goal fuel E : forall g l ub g' l' ub', small g -> fim_loop fuel E noGoal g l false ub = Ok (g', l', ub') -> l' = [].
Proof.
  induction fuel as [|k IH]; intros g l ub g' l' ub' P H; cbn [fim_loop] in H; (destruct l as [|x l]; [injection H as <- <- <-; reflexivity|]); [discriminate|].
  apply bind_ok in H. destruct H as [[[[g1 l1] st1] ub1] [H1 H]]. destruct (fim_pass_no_goal _ _ _ _ _ _ P H1) as [P1 S1]. cbn in P1, S1. subst st1.
  exact (IH _ _ _ _ _ _ P1 H).
Qed.

Lemma fim_run_no_goal fuel E init g g' l ub : small g -> fim_run fuel E noGoal init g = Ok (g', l, ub) -> l = [].
Proof.
  intros P H. unfold fim_run in H. apply bind_ok in H. destruct H as [s [H0 H]]. refine (fim_loop_no_goal _ _ _ _ _ _ _ _ _ H).
  refine (foldM_inv_partial (fun s : fim_state (N := N) => small (fi_g s)) _ _ _ _ _ _ H0); [exact P|].
  intros s1 i s2 _ P1 Hi. unfold fim_init1 in Hi. invb.
  refine (foldM_inv_partial (fun s : fim_state (N := N) => small (fi_g s)) _ _ _ _ _ _ Hi); [exact (upd_small _ _ _ _ E1 (upd_small _ _ _ _ E0 P1))|].
  intros s3 j s4 _ P3 Hj. invb. destruct (fmstate_eqb (c_state x2) OPEN && negb (isOccupied x2)); invb; [|exact P3]. exact (upd_small _ _ _ _ E4 P3).
Qed.

(** *** GMM *)
Lemma gmm_second_nb_small s j s' : small (fst s) -> gmm_second_nb s j = Ok s' -> small (fst (s' : grid N * list Z)).
Proof.
  destruct s as [g p]. unfold gmm_second_nb. cbn [fst]. intros P H. invb. destruct (gmm_skip x); invb; [exact P|].
  assert (P1 : small x1) by (destruct (nltb x0 (c_val x)); [exact (upd_small _ _ _ _ E1 P)|invb; exact P]).
  destruct (fmstate_eqb (c_state x) OPEN); invb; [|exact P1]. exact (upd_small _ _ _ _ E2 P1).
Qed.

Lemma gmm_second_no_goal tm l : forall g kept pushed r, small g -> gmm_second tm noGoal g kept l pushed false = Ok r ->
  small (fst (fst r)) /\ snd r = false.
Proof.
  induction l as [|i l IH]; intros g kept pushed r P H; cbn [gmm_second] in H; [injection H as <-; auto|].
  apply bind_ok in H. destruct H as [ti [_ H]]. destruct (nleb ti tm); [|exact (IH _ _ _ _ P H)].
  apply bind_ok in H. destruct H as [ns [_ H]]. apply bind_ok in H. destruct H as [[g1 p1] [H1 H]]. apply bind_ok in H. destruct H as [g2 [H2 H]].
  assert (P1 : small g1).
  { refine (foldM_inv_partial (fun s : grid N * list Z => small (fst s)) _ _ _ (g1, p1) _ _ H1); [exact P|]. intros s y s1 _ P' Hu. exact (gmm_second_nb_small _ _ _ P' Hu). }
  rewrite (upd_goal _ _ _ _ P1 H2) in H. exact (IH _ _ _ _ (upd_small _ _ _ _ H2 P1) H).
Qed.

Lemma gmm_first_small tm g i g' : small g -> gmm_first tm g i = Ok g' -> small g'.
Proof.
  intros P H. unfold gmm_first in H. apply bind_ok in H. destruct H as [ti [_ H]]. destruct (nleb ti tm); [|injection H as <-; exact P].
  apply bind_ok in H. destruct H as [ns [_ H]]. refine (foldM_inv_partial small _ _ _ _ P _ H).
  intros g1 j g2 _ P1 Hj. invb. destruct (gmm_skip x); invb; [exact P1|]. destruct (nltb x0 (c_val x)); invb; [|exact P1]. exact (upd_small _ _ _ _ Hj P1).
Qed.

Lemma gmm_loop_no_goal fuel dt : forall s s' : gmm_state (N := N), small (gm_g s) -> gmm_loop fuel dt noGoal s false = Ok s' -> gm_l s' = [].
Proof.
  induction fuel as [|k IH]; intros s s' P H; cbn [gmm_loop] in H; (destruct (gm_l s) as [|x l] eqn:El; [injection H as <-; exact El|]); [discriminate|].
  apply bind_ok in H. destruct H as [g1 [H1 H]]. apply bind_ok in H. destruct H as [[[g2 l2] st2] [H2 H]].
  assert (P1 : small g1) by exact (foldM_inv_partial small _ _ _ _ P (fun _ _ _ _ P' Hu => gmm_first_small _ _ _ _ P' Hu) H1).
  destruct (gmm_second_no_goal _ _ _ _ _ _ P1 H2) as [P2 S2]. cbn in P2, S2. subst st2. exact (IH (mkGmm g2 l2 (nadd (gm_tm s) dt)) _ P2 H).
Qed.

Lemma gmm_run_no_goal fuel dt init g s : small g -> gmm_run fuel dt noGoal init g = Ok s -> gm_l s = [].
Proof.
  intros P H. unfold gmm_run in H. apply bind_ok in H. destruct H as [s0 [H0 H]]. refine (gmm_loop_no_goal _ _ _ _ _ H).
  refine (foldM_inv_partial (fun s : gmm_state (N := N) => small (gm_g s)) _ _ _ _ _ _ H0); [exact P|].
  intros s1 i s2 _ P1 Hi. unfold gmm_init1 in Hi. invb.
  refine (foldM_inv_partial (fun s : gmm_state (N := N) => small (gm_g s)) _ _ _ _ _ _ Hi); [exact (upd_small _ _ _ _ E0 (upd_small _ _ _ _ E P1))|].
  intros s3 j s4 _ P3 Hj. invb. destruct (fmstate_eqb (c_state x2) FROZEN || isOccupied x2); invb; [exact P3|]. cbn. exact (upd_small _ _ _ _ E5 (upd_small _ _ _ _ E4 P3)).
Qed.

(** *** UFMM *)
Lemma ufmm_loop_no_goal fuel : forall (s : uf_state (N := N)) log s' log', small (uf_g s) -> ufmm_loop fuel noGoal s log = Ok (s', log') -> uq_empty (uf_q s') = true.
Proof.
  induction fuel as [|k IH]; intros s log s' log' P H; cbn [ufmm_loop] in H; (destruct (uq_empty (uf_q s)) eqn:Ee; [injection H as <- <-; exact Ee|]); [discriminate|].
  apply bind_ok in H. destruct H as [[m s1] [H1 H]].
  assert (Hm : (m =? noGoal) = false).
  { unfold ufmm_step in H1. apply bind_ok in H1. destruct H1 as [[q1 m'] [_ H1]]. apply bind_ok in H1. destruct H1 as [g1 [Hg H1]]. invb. exact (upd_goal _ _ _ _ P Hg). }
  rewrite Hm in H. refine (IH _ _ _ _ _ H). exact (frame_small _ _ _ (ufmm_step_frame (fun _ => True) _ _ H1) P).
Qed.

Lemma ufmm_run_no_goal fuel init g q s log : small g -> ufmm_run fuel noGoal init g q = Ok (s, log) -> uq_empty (uf_q s) = true.
Proof.
  intros P H. unfold ufmm_run in H. apply bind_ok in H. destruct H as [s0 [H0 H]]. refine (ufmm_loop_no_goal _ _ _ _ _ _ H).
  refine (foldM_inv_partial (fun s : uf_state (N := N) => small (uf_g s)) _ _ _ _ _ _ H0); [exact P|].
  intros s1 i s2 _ P1 Hi. apply bind_ok in Hi. destruct Hi as [g1 [Hg Hi]].
  exact (frame_small _ _ _ (uf_push_frame (fun _ => True) _ _ _ Hi) (upd_small _ _ _ _ Hg P1 : small (uf_g (mkUf g1 (uf_q s1))))).
Qed.

End NG.

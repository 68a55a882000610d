(** Frame.v - no solver touches the map (C20): proofs. *)
From Verif Require Import Base BaseFacts Num NumLaws Grid GridUpd Obs Eikonal FMMModel SweepModel QueueModel UntidyModel.

Ltac invb :=
  repeat match goal with
  | H : bind _ _ = Ok _ |- _ => apply bind_ok in H; let x := fresh "x" in let E := fresh "E" in destruct H as [x [E H]]
  | H : Ok _ = Ok _ |- _ => injection H as H; try subst
  | H : Fail _ = Ok _ |- _ => discriminate H
  | H : (_, _) = (_, _) |- _ => let H' := fresh in injection H as H H'; try subst
  end.

Section Frame.
Context {N : Num}.
Variable I : Z -> Prop.
Implicit Types g : grid N.

Lemma setval_free g0 g g' i t c :
  frame I g0 g -> getCell g i = Ok c -> isOccupied c = false -> setArrivalTime g i t = Ok g' -> frame I g0 g'.
Proof.
  intros HF Hc Ho H. eapply frame_trans; [exact HF|]. eapply setArrivalTime_frame; [exact H|].
  right. intros c' Hc'. congruence.
Qed.

Lemma setval_init g0 g g' i t : I i -> frame I g0 g -> setArrivalTime g i t = Ok g' -> frame I g0 g'.
Proof.
  intros Hi HF H. eapply frame_trans; [exact HF|]. eapply setArrivalTime_frame; [exact H|]. left; exact Hi.
Qed.

Lemma setst g0 g g' i s : frame I g0 g -> setState g i s = Ok g' -> frame I g0 g'.
Proof. intros HF H. eapply frame_trans; [exact HF|]. eapply setState_frame; exact H. Qed.
Lemma setbk g0 g g' i s : frame I g0 g -> setBucket g i s = Ok g' -> frame I g0 g'.
Proof. intros HF H. eapply frame_trans; [exact HF|]. eapply setBucket_frame; exact H. Qed.
Lemma seth g0 g g' i s : frame I g0 g -> setHeuristicTime g i s = Ok g' -> frame I g0 g'.
Proof. intros HF H. eapply frame_trans; [exact HF|]. eapply setHeuristicTime_frame; exact H. Qed.

(** what a cell keeps under state/heuristic/bucket updates *)
Lemma setState_occ g i s g' j c : setState g i s = Ok g' -> getCell g' j = Ok c ->
  exists c0, getCell g j = Ok c0 /\ isOccupied c0 = isOccupied c.
Proof.
  intros H Hc. pose proof (setState_frame (fun _ => True) _ _ _ _ H) as HF.
  destruct (frame_back _ _ _ _ _ HF Hc) as [c0 [H1 [H2 _]]]. exists c0. split; [exact H1|].
  unfold isOccupied. rewrite H2. reflexivity.
Qed.

Lemma frame_occ_false g g' i c : frame I g g' -> getCell g i = Ok c -> isOccupied c = false ->
  exists c', getCell g' i = Ok c' /\ isOccupied c' = false.
Proof.
  intros HF Hc Ho. pose proof HF as [_ [_ [_ [_ [_ H]]]]]. destruct (H i c Hc) as [c' [H1 _]].
  exists c'. split; [exact H1|]. rewrite (frame_occ _ _ _ _ _ _ HF Hc H1). exact Ho.
Qed.

(** *** FMM *)
Section WithHeap.
Variable HO : HeapOps N.

Lemma fmm_heur_frame cfg g g' j : fmm_heur cfg g j = Ok g' -> frame I g g'.
Proof.
  unfold fmm_heur. destruct (fc_strat cfg); intros H; invb; [apply frame_refl| |];
    eapply seth; eauto using frame_refl.
Qed.

Lemma fmm_neighbor_frame cfg st j st' :
  fmm_neighbor HO cfg st j = Ok st' -> frame I (fs_g st) (fs_g st').
Proof.
  unfold fmm_neighbor. intros H. invb. destruct (fmstate_eqb (c_state x) FROZEN); cbn [orb] in H.
  { invb. apply frame_refl. }
  destruct (isOccupied x) eqn:Eo; invb; [apply frame_refl|].
  pose proof (fmm_heur_frame _ _ _ _ E1) as HF.
  destruct (frame_occ_false _ _ _ _ HF E Eo) as [c2 [Hc2 Ho2]].
  destruct (fmstate_eqb (c_state x2) NARROW).
  - destruct (isTimeBetterThan x0 (c_val x2)); invb; [|exact HF].
    eapply setval_free; eauto.
  - invb. cbn [fs_g].
    assert (HF2 : frame I (fs_g st) x3) by (eapply setst; eauto).
    destruct (frame_occ_false _ _ _ _ HF2 E Eo) as [c4 [Hc4 Ho4]].
    eapply setval_free; [| | |eassumption]; eauto.
Qed.

Lemma fmm_step_frame cfg st r :
  fmm_step HO cfg st = Ok r -> match r with None => True | Some (_, st') => frame I (fs_g st) (fs_g st') end.
Proof.
  unfold fmm_step. destruct (hpop HO _ _) as [[m h1]|]; intros H; invb; [|exact Logic.I].
  refine (foldM_inv_partial (fun s => frame I (fs_g st) (fs_g s)) _ _ _ _ _ _ E1).
  - cbn. eapply setst; eauto using frame_refl.
  - intros s y s1 _ HF Hs. eapply frame_trans; [exact HF|]. eapply fmm_neighbor_frame; eauto.
Qed.

Lemma fmm_loop_frame cfg goal fuel st log st' log' :
  fmm_loop HO fuel cfg goal st log = Ok (st', log') -> frame I (fs_g st) (fs_g st').
Proof.
  revert st log; induction fuel as [|k IH]; intros st log H; cbn in H; [discriminate|].
  invb. pose proof (fmm_step_frame _ _ _ E) as HF. destruct x as [[m s]|].
  - destruct (m =? goal); invb; [exact HF|]. eapply frame_trans; eauto.
  - invb. apply frame_refl.
Qed.

Lemma fmm_run_frame fuel cfg goal init g h0 st log :
  (forall i, In i init -> I i) ->
  fmm_run HO fuel cfg goal init g h0 = Ok (st, log) -> frame I g (fs_g st).
Proof.
  intros Hin H. unfold fmm_run in H. invb.
  eapply frame_trans; [|eapply fmm_loop_frame; eauto].
  refine (foldM_inv_partial (fun s => frame I g (fs_g s)) _ _ _ _ _ _ E); [apply frame_refl|].
  intros s i s1 Hi HF Hs. unfold fmm_init1 in Hs. invb. cbn.
  eapply frame_trans; [|eapply fmm_heur_frame; eauto]. eapply setval_init; eauto.
Qed.
End WithHeap.

(** *** sweeping *)
Lemma recIter_inv {S} (P : S -> Prop) f levels it s s' :
  (forall s i s1, P s -> f s i = Ok s1 -> P s1) -> P s -> recIter f levels it s = Ok s' -> P s'.
Proof.
  intros Hf. revert it s s'. induction levels as [|[is_ st] r IH]; intros it s s' Hs H; cbn in H; [eauto|].
  refine (foldM_inv_partial P _ _ _ _ Hs _ H). intros s1 i s2 _ H1 H2. eauto.
Qed.

Definition solve_frames (solve : sw_state -> Z -> res (sw_state (N := N))) :=
  forall s i s' c, getCell (sw_g s) i = Ok c -> isOccupied c = false ->
    solve s i = Ok s' -> frame I (sw_g s) (sw_g s').

Lemma one_sweep_frame solve incs s s' : solve_frames solve ->
  one_sweep solve incs s = Ok s' -> frame I (sw_g s) (sw_g s').
Proof.
  intros Hs H. unfold one_sweep in H.
  refine (recIter_inv (fun x => frame I (sw_g s) (sw_g x)) _ _ _ _ _ _ (frame_refl _ _) H).
  intros s1 i s2 HF H1. unfold visit in H1. invb. destruct (isOccupied x) eqn:Eo; invb; auto.
  eapply frame_trans; [exact HF|]. eapply Hs; eauto.
Qed.

Lemma sweep_loop_frame solve fuel ms sw incs s r : solve_frames solve ->
  sweep_loop solve fuel ms sw incs s = Ok r -> frame I (sw_g s) (sw_g (fst (fst r))).
Proof.
  intros Hs. revert sw incs s; induction fuel as [|k IH]; intros sw incs s H; cbn in H;
    destruct (sw_keep s && negb (sw_stop s) && (sw <? ms)); invb; try apply frame_refl.
  apply one_sweep_frame in E; [|exact Hs]. eapply frame_trans; [exact E|]. eauto.
Qed.

Lemma fsm_frames goal : solve_frames (fsm_solveForIdx goal).
Proof.
  intros s i s' c Hc Ho H. unfold fsm_solveForIdx in H. invb.
  destruct (isTimeBetterThan x0 x); invb.
  - cbn. eapply setval_free; eauto using frame_refl.
  - destruct (negb (nisnan x0) && negb (nisinf x0) && (i =? goal)); invb; apply frame_refl.
Qed.

Lemma lsm_frames goal : solve_frames (lsm_solveForIdx goal).
Proof.
  intros s i s' c Hc Ho H. unfold lsm_solveForIdx in H. invb.
  destruct (fmstate_eqb (c_state x) OPEN); invb; [|apply frame_refl].
  cbn. eapply setst; [|eassumption].
  destruct (isTimeBetterThan x0 (c_val x)); invb.
  - cbn. refine (foldM_inv_partial (fun g => frame I (sw_g s) g) _ _ _ _ _ _ E5).
    + exact (setval_free _ _ _ _ _ _ (frame_refl _ _) Hc Ho E3).
    + intros g j g1 _ HF Hg. apply bind_ok in Hg. destruct Hg as [v [_ Hg]]. destruct (isTimeBetterThan x0 v); invb; auto. eapply setst; eauto.
  - destruct (negb (nisnan x0) && negb (nisinf x0) && (i =? goal)); invb; apply frame_refl.
Qed.

Lemma fsm_run_frame fuel ms goal init sw incs g r :
  (forall i, In i init -> I i) -> fsm_run fuel ms goal init sw incs g = Ok r ->
  frame I g (sw_g (fst (fst r))).
Proof.
  intros Hin H. unfold fsm_run in H. invb. apply sweep_loop_frame in H; [|apply fsm_frames].
  eapply frame_trans; [|exact H]. cbn.
  refine (foldM_inv_partial (frame I g) _ _ _ _ (frame_refl _ _) _ E).
  intros s i s1 Hi HF Hs. eapply setval_init; eauto.
Qed.

Lemma freeze_all_frame g g' : freeze_all g = Ok g' -> frame I g g'.
Proof.
  unfold freeze_all. intros H. refine (foldM_inv_partial (frame I g) _ _ _ _ (frame_refl _ _) _ H).
  intros s i s1 _ HF Hs. eapply setst; eauto.
Qed.

Lemma lsm_run_frame fuel ms goal init sw incs g r :
  (forall i, In i init -> I i) -> lsm_run fuel ms goal init sw incs g = Ok r ->
  frame I g (sw_g (fst (fst r))).
Proof.
  intros Hin H. unfold lsm_run in H. invb. apply sweep_loop_frame in H; [|apply lsm_frames].
  eapply frame_trans; [|exact H]. cbn. apply freeze_all_frame in E.
  refine (foldM_inv_partial (frame I g) _ _ _ _ E _ E0).
  intros s i s1 Hi HF Hs. unfold lsm_init1 in Hs. invb.
  refine (foldM_inv_partial (frame I g) _ _ _ _ _ _ Hs).
  - eapply setval_init; eauto.
  - intros s2 j s3 _ HF2 H2. eapply setst; eauto.
Qed.

(** *** DDQM *)
Lemma ddqm_neighbor_frame (t : N) (s : dq_state (N := N)) n s' : ddqm_neighbor t s n = Ok s' -> frame I (dq_g s) (dq_g s').
Proof.
  unfold ddqm_neighbor. intros H. invb.
  destruct (fmstate_eqb (c_state x) FROZEN && isTimeBetterThan t (c_val x)); invb; [|apply frame_refl].
  destruct (isTimeBetterThan t (dq_th s)); invb; cbn; eapply setst; eauto using frame_refl.
Qed.

Lemma ddqm_pop1_frame goal (s : dq_state (N := N)) idx s' : ddqm_pop1 goal s idx = Ok s' -> frame I (dq_g s) (dq_g s').
Proof.
  unfold ddqm_pop1. intros H. invb. destruct (isOccupied x) eqn:Eo; invb; [apply frame_refl|].
  cbn. eapply setst; [|eassumption].
  destruct (isTimeBetterThan x0 (c_val x)); invb; [|apply frame_refl].
  refine (foldM_inv_partial (fun s1 : dq_state (N := N) => frame I (dq_g s) (dq_g s1)) _ _ _ _ _ _ E1).
  - cbn. eapply setval_free; eauto using frame_refl.
  - intros s1 n s2 _ HF Hn. eapply frame_trans; [exact HF|]. eapply ddqm_neighbor_frame; eauto.
Qed.

Lemma ddqm_loop_frame fuel goal (s s' : dq_state (N := N)) : ddqm_loop fuel goal s = Ok s' -> frame I (dq_g s) (dq_g s').
Proof.
  revert s; induction fuel as [|k IH]; intros s H; cbn in H; [discriminate|].
  destruct (dq_lo s) as [|idx q] eqn:El.
  - destruct (dq_hi s), (dq_stop s); invb; cbn; try apply frame_refl; apply IH in H; exact H.
  - destruct (dq_stop s).
    + destruct (dq_hi s); invb; apply frame_refl.
    + invb. apply ddqm_pop1_frame in E. cbn in E. eapply frame_trans; [exact E|]. auto.
Qed.

Lemma ddqm_run_frame fuel goal init th step g s :
  (forall i, In i init -> I i) -> ddqm_run fuel goal init th step g = Ok s -> frame I g (dq_g s).
Proof.
  intros Hin H. unfold ddqm_run in H. invb. apply freeze_all_frame in E. destruct x0 as [g1 q].
  assert (HF : frame I g g1).
  { refine (foldM_inv_partial (fun s : grid N * list Z => frame I g (fst s)) _ _ _ (g1, q) _ _ E0); [exact E|].
    intros [g2 q2] i s1 Hi HF Hs. cbn in HF. unfold ddqm_init1 in Hs. invb.
    refine (foldM_inv_partial (fun s : grid N * list Z => frame I g (fst s)) _ _ _ _ _ _ Hs).
    - cbn. eapply setval_init; eauto.
    - intros [g3 q3] j s3 _ HF2 H2. cbn in HF2. invb. destruct (isOccupied x2); invb; [exact HF2|].
      cbn. eapply setst; eauto. }
  destruct q as [|a q]; invb; [exact HF|]. eapply frame_trans; [exact HF|].
  apply ddqm_loop_frame in H. exact H.
Qed.

(** *** FIM *)
Definition fim_inv g0 (g : grid N) (l : list Z) : Prop :=
  frame I g0 g /\ forall x, In x l -> free g0 x.

Lemma fim_neighbor_inv g0 s j s' :
  fim_inv g0 (fst s) (snd s) -> fim_neighbor s j = Ok s' -> fim_inv g0 (fst s') (snd s').
Proof.
  destruct s as [g ins]. unfold fim_neighbor. cbn. intros [HF Hl] H. invb.
  destruct (negb (fmstate_eqb (c_state x) NARROW)); cbn [andb] in H; invb; [|split; assumption].
  destruct (isOccupied x) eqn:Eo; cbn [negb] in H; invb; [split; assumption|].
  destruct (isTimeBetterThan x0 (c_val x)); invb; [|split; assumption].
  cbn. split.
  - eapply setst; [|eassumption]. eapply setval_free; eauto.
  - intros y Hy. apply in_app_or in Hy. destruct Hy as [Hy|[<-|[]]]; [auto|].
    eapply frame_free_inv; [exact HF|]. exists x. auto.
Qed.

Lemma fim_pass_inv E goal g0 g before after stop ub r :
  fim_inv g0 g (before ++ after) -> fim_pass E goal g before after stop ub = Ok r ->
  fim_inv g0 (fst (fst (fst r))) (snd (fst (fst r))).
Proof.
  revert g before stop ub; induction after as [|x l IH]; intros g before stop ub [HF Hl] H; cbn in H.
  - invb. cbn. rewrite app_nil_r in Hl. split; assumption.
  - invb.
    assert (Hx : frame I g0 x2).
    { destruct (frame_free _ _ _ _ HF (Hl x ltac:(apply in_or_app; right; left; reflexivity))) as [c [Hc Ho]].
      eapply setval_free; eauto. }
    destruct (nabs (nsub x0 x1) <=? E)%num; invb.
    + destruct x4 as [g2 ins]. invb.
      assert (Hinv : fim_inv g0 g2 ins).
      { apply (foldM_inv_partial (fun s => fim_inv g0 (fst s) (snd s)) _ _ _ (g2, ins)) with (3 := E4).
        - split; [exact Hx|intros y []].
        - intros s j s1 _ Hs Hj. eapply fim_neighbor_inv; eauto. }
      eapply IH; [|exact H]. destruct Hinv as [HF2 Hins]. split; [eapply setst; eauto|].
      intros y Hy. rewrite <- app_assoc in Hy. apply in_app_or in Hy. destruct Hy as [Hy|Hy].
      * apply Hl, in_or_app; auto.
      * apply in_app_or in Hy. destruct Hy as [Hy|Hy]; [auto|]. apply Hl, in_or_app; right; right; exact Hy.
    + eapply IH; [|exact H]. split; [exact Hx|]. rewrite <- app_assoc. exact Hl.
Qed.

Lemma fim_loop_inv fuel E goal g0 g l stop ub r :
  fim_inv g0 g l -> fim_loop fuel E goal g l stop ub = Ok r -> fim_inv g0 (fst (fst r)) (snd (fst r)).
Proof.
  revert g l stop ub; induction fuel as [|k IH]; intros g l stop ub Hi H; cbn in H;
    (destruct stop; [invb; exact Hi|]); (destruct l as [|x l]; [invb; exact Hi|]); [discriminate|].
  apply bind_ok in H. destruct H as [[[[g1 l1] st1] ub1] [H1 H2]].
  apply (fim_pass_inv E goal g0 g [] (x :: l)) in H1; [|exact Hi]. eauto.
Qed.

Lemma fim_run_frame fuel E goal init g r :
  (forall i, In i init -> I i) -> fim_run fuel E goal init g = Ok r -> frame I g (fst (fst r)).
Proof.
  intros Hin H. unfold fim_run in H. apply bind_ok in H. destruct H as [s [Hs H]].
  assert (Hi : fim_inv g (fi_g s) (fi_l s)).
  { refine (foldM_inv_partial (fun s : fim_state (N := N) => fim_inv g (fi_g s) (fi_l s)) _ _ _ _ _ _ Hs).
    - split; [apply frame_refl|intros y []].
    - intros s1 i s2 Hi [HF Hl] H2. unfold fim_init1 in H2. invb.
      refine (foldM_inv_partial (fun s : fim_state (N := N) => fim_inv g (fi_g s) (fi_l s)) _ _ _ _ _ _ H2).
      + split; [|exact Hl]. cbn. eapply setst; [|eassumption]. eapply setval_init; eauto.
      + intros s3 j s4 _ [HF3 Hl3] H4. invb.
        destruct (fmstate_eqb (c_state x2) OPEN); cbn [andb] in H4; invb; [|split; assumption].
        destruct (isOccupied x2) eqn:Eo; cbn [negb] in H4; invb; [split; assumption|].
        cbn. split; [eapply setst; eauto|]. intros y Hy. apply in_app_or in Hy.
        destruct Hy as [Hy|[<-|[]]]; [auto|]. eapply frame_free_inv; [exact HF3|]. exists x2; auto. }
  apply (fim_loop_inv _ _ _ _ _ _ _ _ _ Hi) in H. apply H.
Qed.

(** *** GMM *)
Lemma gmm_skip_occ (c : cell N) : gmm_skip c = false -> isOccupied c = false.
Proof. unfold gmm_skip. destruct (fmstate_eqb _ _), (isOccupied c); cbn; congruence. Qed.

Lemma gmm_first_frame tm g i g' : gmm_first tm g i = Ok g' -> frame I g g'.
Proof.
  unfold gmm_first. intros H. invb. destruct (nleb x tm); invb; [|apply frame_refl].
  refine (foldM_inv_partial (frame I g) _ _ _ _ (frame_refl _ _) _ H).
  intros g1 j g2 _ HF Hg. invb. destruct (gmm_skip x1) eqn:Es; invb; [exact HF|].
  destruct (nltb x2 (c_val x1)); invb; [|exact HF]. apply gmm_skip_occ in Es. eapply setval_free; eauto.
Qed.

Lemma gmm_second_nb_frame g0 s j s' :
  frame I g0 (fst s) -> gmm_second_nb s j = Ok s' -> frame I g0 (fst s').
Proof.
  destruct s as [g p]. unfold gmm_second_nb. cbn [fst]. intros HF H. invb.
  destruct (gmm_skip x) eqn:Es; invb; [exact HF|]. apply gmm_skip_occ in Es.
  assert (HF1 : frame I g0 x1).
  { destruct (nltb x0 (c_val x)); invb; [|exact HF]. eapply setval_free; eauto. }
  destruct (fmstate_eqb (c_state x) OPEN); invb; [|exact HF1]. cbn. eapply setst; eauto.
Qed.

Lemma gmm_second_frame tm goal g0 g kept l pushed stop r :
  frame I g0 g -> gmm_second tm goal g kept l pushed stop = Ok r -> frame I g0 (fst (fst r)).
Proof.
  revert g kept pushed stop; induction l as [|i l IH]; intros g kept pushed stop HF H; cbn in H.
  - invb. exact HF.
  - invb. destruct (nleb x tm); invb.
    + destruct x1 as [g1 p1]. invb.
      assert (HF1 : frame I g0 g1).
      { apply (foldM_inv_partial (fun s => frame I g0 (fst s)) _ _ _ (g1, p1)) with (3 := E1); [exact HF|].
        intros s j s1 _ Hs Hj. eapply gmm_second_nb_frame; eauto. }
      eapply IH; [|exact H]. eapply setst; eauto.
    + eauto.
Qed.

Lemma gmm_loop_frame fuel dt goal g0 s stop s' :
  frame I g0 (gm_g s) -> gmm_loop fuel dt goal s stop = Ok s' -> frame I g0 (gm_g s').
Proof.
  revert s stop; induction fuel as [|k IH]; intros s stop HF H; cbn in H;
    (destruct stop; [invb; exact HF|]); (destruct (gm_l s) as [|x l] eqn:El; [invb; exact HF|]); [discriminate|].
  apply bind_ok in H. destruct H as [g1 [H1 H]].
  apply bind_ok in H. destruct H as [[[g2 l2] stop2] [H2 H]].
  eapply IH; [|exact H]. cbn. apply (gmm_second_frame _ _ g0) in H2; [exact H2|].
  refine (foldM_inv_partial (frame I g0) _ _ _ _ HF _ H1).
  intros g3 i g4 _ HF3 H3. eapply frame_trans; [exact HF3|]. eapply gmm_first_frame; eauto.
Qed.

Lemma gmm_run_frame fuel dt goal init g s :
  (forall i, In i init -> I i) -> gmm_run fuel dt goal init g = Ok s -> frame I g (gm_g s).
Proof.
  intros Hin H. unfold gmm_run in H. apply bind_ok in H. destruct H as [s0 [Hs H]].
  eapply gmm_loop_frame; [|exact H].
  refine (foldM_inv_partial (fun s : gmm_state (N := N) => frame I g (gm_g s)) _ _ _ _ _ _ Hs); [apply frame_refl|].
  intros s1 i s2 Hi HF H2. unfold gmm_init1 in H2. invb.
  refine (foldM_inv_partial (fun s : gmm_state (N := N) => frame I g (gm_g s)) _ _ _ _ _ _ H2).
  - cbn. eapply setst; [|eassumption]. eapply setval_init; eauto.
  - intros s3 j s4 _ HF3 H4. invb.
    destruct (fmstate_eqb (c_state x2) FROZEN); cbn [orb] in H4; invb; [exact HF3|].
    destruct (isOccupied x2) eqn:Eo; invb; [exact HF3|].
    cbn. eapply setst; [|eassumption]. eapply setval_free; eauto.
Qed.

(** *** UFMM *)
Lemma uf_push_frame (s : uf_state (N := N)) i s' : uf_push s i = Ok s' -> frame I (uf_g s) (uf_g s').
Proof.
  unfold uf_push. intros H. apply bind_ok in H. destruct H as [t [_ H]].
  apply bind_ok in H. destruct H as [[q b] [_ H]]. invb. cbn. eapply setbk; eauto using frame_refl.
Qed.

Lemma uf_increase_frame (s : uf_state (N := N)) i s' : uf_increase s i = Ok s' -> frame I (uf_g s) (uf_g s').
Proof.
  unfold uf_increase. intros H. apply bind_ok in H. destruct H as [t [_ H]].
  apply bind_ok in H. destruct H as [[q b] [_ H]]. invb. cbn. eapply setbk; eauto using frame_refl.
Qed.

Lemma ufmm_neighbor_frame (s : uf_state (N := N)) j s' : ufmm_neighbor s j = Ok s' -> frame I (uf_g s) (uf_g s').
Proof.
  unfold ufmm_neighbor. intros H. invb.
  destruct (fmstate_eqb (c_state x) FROZEN); cbn [orb] in H; invb; [apply frame_refl|].
  destruct (isOccupied x) eqn:Eo; invb; [apply frame_refl|].
  destruct (fmstate_eqb (c_state x) NARROW).
  - destruct (isTimeBetterThan x0 (c_val x)); invb; [|apply frame_refl].
    apply uf_increase_frame in H. cbn in H. eapply frame_trans; [|exact H].
    eapply setval_free; eauto using frame_refl.
  - invb. apply uf_push_frame in H. cbn in H. eapply frame_trans; [|exact H].
    assert (HF : frame I (uf_g s) x1) by (eapply setst; eauto using frame_refl).
    destruct (frame_occ_false _ _ _ _ HF E Eo) as [c2 [Hc2 Ho2]].
    eapply setval_free; [| | |eassumption]; eauto.
Qed.

Lemma ufmm_step_frame (s : uf_state (N := N)) r : ufmm_step s = Ok r -> frame I (uf_g s) (uf_g (snd r)).
Proof.
  unfold ufmm_step. intros H. apply bind_ok in H. destruct H as [[q1 m] [_ H]]. invb. cbn.
  refine (foldM_inv_partial (fun s1 : uf_state (N := N) => frame I (uf_g s) (uf_g s1)) _ _ _ _ _ _ E1).
  - cbn. eapply setst; eauto using frame_refl.
  - intros s1 j s2 _ HF Hj. eapply frame_trans; [exact HF|]. eapply ufmm_neighbor_frame; eauto.
Qed.

Lemma ufmm_loop_frame fuel goal (s : uf_state (N := N)) log r : ufmm_loop fuel goal s log = Ok r -> frame I (uf_g s) (uf_g (fst r)).
Proof.
  revert s log; induction fuel as [|k IH]; intros s log H; cbn in H;
    (destruct (uq_empty (uf_q s)); [invb; apply frame_refl|]); [discriminate|].
  apply bind_ok in H. destruct H as [[m s1] [H1 H]]. apply ufmm_step_frame in H1. cbn in H1.
  destruct (m =? goal); invb; [exact H1|]. eapply frame_trans; eauto.
Qed.

Lemma ufmm_run_frame fuel goal init g q r :
  (forall i, In i init -> I i) -> ufmm_run fuel goal init g q = Ok r -> frame I g (uf_g (fst r)).
Proof.
  intros Hin H. unfold ufmm_run in H. apply bind_ok in H. destruct H as [s0 [Hs H]].
  apply ufmm_loop_frame in H. eapply frame_trans; [|exact H].
  refine (foldM_inv_partial (fun s : uf_state (N := N) => frame I g (uf_g s)) _ _ _ _ _ _ Hs); [apply frame_refl|].
  intros s1 i s2 Hi HF H2. invb. apply uf_push_frame in H2. cbn in H2.
  eapply frame_trans; [|exact H2]. eapply setval_init; eauto.
Qed.

End Frame.

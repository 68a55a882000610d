(** Evolve.v - every run of every solver is a sequence of elementary steps on the
    grid: bookkeeping, an initial point set to 0, or a free cell set to the value
    solveEikonal returns for it.  What those steps preserve holds for all solvers. *)
From Verif Require Import Base BaseFacts Num NumLaws Grid GridUpd Obs Eikonal FMMModel SweepModel QueueModel UntidyModel Frame.

Section Evolve.
Context {N : Num}.
Variable init : list Z.
Implicit Types g : grid N.

(** bookkeeping fields only *)
Definition meta (f : cell N -> cell N) : Prop :=
  forall c, c_val (f c) = c_val c /\ c_occ (f c) = c_occ c /\ c_idx (f c) = c_idx c.

Inductive ev : grid N -> grid N -> Prop :=
| ev_refl g : ev g g
| ev_meta g0 g i f g' : ev g0 g -> meta f -> updCell g i f = Ok g' -> ev g0 g'
| ev_src g0 g i g' : ev g0 g -> In i init -> setArrivalTime g i n0 = Ok g' -> ev g0 g'
| ev_solve g0 g i t g' : ev g0 g -> free g i -> solveEikonal g i = Ok t -> setArrivalTime g i t = Ok g' -> ev g0 g'.

Lemma ev_trans g1 g2 g3 : ev g1 g2 -> ev g2 g3 -> ev g1 g3.
Proof. intros A B. induction B; eauto using ev. Qed.

Lemma ev_frame g g' : ev g g' -> frame (fun i => In i init) g g'.
Proof.
  induction 1 as [g|g0 g i f g' _ IH Hm H|g0 g i g' _ IH Hi H|g0 g i t g' _ IH [c [Hc Ho]] _ H]; [apply frame_refl| | |];
    (eapply frame_trans; [exact IH|]).
  - eapply updCell_frame; [exact H|]. intros c _. destruct (Hm c) as [A [B C]]. auto.
  - eapply setArrivalTime_frame; eauto.
  - eapply setArrivalTime_frame; [exact H|]. right. intros c' Hc'. congruence.
Qed.

Lemma setst g0 g g' i s : ev g0 g -> setState g i s = Ok g' -> ev g0 g'.
Proof. intros HF H. eapply ev_meta; [exact HF| |exact H]. intros c; auto. Qed.
Lemma setbk g0 g g' i s : ev g0 g -> setBucket g i s = Ok g' -> ev g0 g'.
Proof. intros HF H. eapply ev_meta; [exact HF| |exact H]. intros c; auto. Qed.
Lemma seth g0 g g' i s : ev g0 g -> setHeuristicTime g i s = Ok g' -> ev g0 g'.
Proof. intros HF H. eapply ev_meta; [exact HF| |exact H]. intros c; auto. Qed.

Lemma setval_init g0 g g' i : In i init -> ev g0 g -> setArrivalTime g i n0 = Ok g' -> ev g0 g'.
Proof. intros; eapply ev_src; eauto. Qed.

Lemma setval_free g0 g g' i t c :
  ev g0 g -> getCell g i = Ok c -> isOccupied c = false -> solveEikonal g i = Ok t -> setArrivalTime g i t = Ok g' -> ev g0 g'.
Proof. intros HF Hc Ho Hs H. eapply ev_solve; eauto. exists c; auto. Qed.

(** solveEikonal reads times, velocities, the spacing and the shape only *)
Definition alike g g' : Prop :=
  g_sh g' = g_sh g /\ g_leaf g' = g_leaf g /\
  forall i, match getCell g i, getCell g' i with
            | Ok c, Ok c' => c_val c' = c_val c /\ c_occ c' = c_occ c
            | Fail e, Fail e' => e = e'
            | _, _ => False
            end.

Lemma alike_trans g1 g2 g3 : alike g1 g2 -> alike g2 g3 -> alike g1 g3.
Proof.
  intros [A1 [A2 A3]] [B1 [B2 B3]]. split; [congruence|]. split; [congruence|]. intros i.
  specialize (A3 i); specialize (B3 i). destruct (getCell g1 i), (getCell g2 i), (getCell g3 i); try contradiction; try congruence.
  destruct A3, B3; split; congruence.
Qed.

Lemma alike_time g g' i : alike g g' -> getArrivalTime g' i = getArrivalTime g i.
Proof.
  intros [_ [_ H]]. specialize (H i). unfold getArrivalTime. destruct (getCell g i), (getCell g' i); try contradiction; cbn; [|congruence].
  f_equal. apply H.
Qed.

Lemma alike_min g g' i d : alike g g' -> getMinValueInDim g' i d = getMinValueInDim g i d.
Proof.
  intros H. pose proof H as [Hs _]. unfold getMinValueInDim. rewrite Hs. destruct (getNeighborsInDim (g_sh g) i d) as [[|a [|b l]]|]; cbn [bind]; auto;
    rewrite ?(alike_time g g' _ H); reflexivity.
Qed.

Lemma alike_solve g g' i : alike g g' -> solveEikonal g' i = solveEikonal g i.
Proof.
  intros H. pose proof H as [Hs [Hl Hc]]. unfold solveEikonal.
  assert (E : collectT g' i = collectT g i).
  { unfold collectT. rewrite Hs. apply foldM_ext. intros acc d.
    rewrite (alike_min g g' i d H), (alike_time g g' i H). reflexivity. }
  rewrite E. destruct (collectT g i) as [[|a l]|]; cbn [bind]; auto.
  specialize (Hc i). destruct (getCell g i), (getCell g' i); try contradiction; cbn [bind]; [|congruence].
  destruct Hc as [_ ->]. rewrite Hl. reflexivity.
Qed.

Lemma alike_upd g i f g' : meta f -> updCell g i f = Ok g' -> alike g g'.
Proof.
  intros Hm H. destruct (updCell_fields _ _ _ _ H) as [A [B _]]. split; [exact A|]. split; [exact B|]. intros j.
  rewrite (updCell_get _ _ _ _ j H). destruct (Z.eqb_spec i j) as [->|Hne]; destruct (getCell g j) as [c|]; auto.
  destruct (Hm c) as [? [? _]]; auto.
Qed.

Lemma alike_refl g : alike g g.
Proof. split; [reflexivity|]. split; [reflexivity|]. intros i. destruct (getCell g i); auto. Qed.
Lemma alike_st g i s g' : setState g i s = Ok g' -> alike g g'.
Proof. apply alike_upd. intros c; auto. Qed.
Lemma alike_h g i s g' : setHeuristicTime g i s = Ok g' -> alike g g'.
Proof. apply alike_upd. intros c; auto. Qed.

Lemma ev_occ_false g g' i c : ev g g' -> getCell g i = Ok c -> isOccupied c = false ->
  exists c', getCell g' i = Ok c' /\ isOccupied c' = false.
Proof. intros HF. eapply frame_occ_false. apply ev_frame, HF. Qed.
Lemma ev_free g g' i : ev g g' -> free g i -> free g' i.
Proof. intros H. eapply frame_free. apply ev_frame, H. Qed.
Lemma ev_free_inv g g' i : ev g g' -> free g' i -> free g i.
Proof. intros H. eapply frame_free_inv. apply ev_frame, H. Qed.

(** *** FMM *)
Section WithHeap.
Variable HO : HeapOps N.

Lemma fmm_heur_ev cfg g g' j : fmm_heur cfg g j = Ok g' -> ev g g'.
Proof.
  unfold fmm_heur. destruct (fc_strat cfg); intros H; invb; [apply ev_refl| |];
    eapply seth; eauto using ev_refl.
Qed.

Lemma fmm_heur_alike cfg g g' j : fmm_heur cfg g j = Ok g' -> alike g g'.
Proof.
  unfold fmm_heur. destruct (fc_strat cfg); intros H; invb; [apply alike_refl| |]; eapply alike_h; eauto.
Qed.

Lemma fmm_neighbor_ev cfg st j st' :
  fmm_neighbor HO cfg st j = Ok st' -> ev (fs_g st) (fs_g st').
Proof.
  unfold fmm_neighbor. intros H. invb. destruct (fmstate_eqb (c_state x) FROZEN); cbn [orb] in H.
  { invb. apply ev_refl. }
  destruct (isOccupied x) eqn:Eo; invb; [apply ev_refl|].
  pose proof (fmm_heur_ev _ _ _ _ E1) as HF. pose proof (fmm_heur_alike _ _ _ _ E1) as HA.
  destruct (ev_occ_false _ _ _ _ HF E Eo) as [c2 [Hc2 Ho2]].
  destruct (fmstate_eqb (c_state x2) NARROW).
  - destruct (isTimeBetterThan x0 (c_val x2)); invb; [|exact HF].
    eapply setval_free; eauto. rewrite (alike_solve _ _ _ HA). assumption.
  - invb. cbn [fs_g].
    assert (HF2 : ev (fs_g st) x3) by (eapply setst; eauto).
    destruct (ev_occ_false _ _ _ _ HF2 E Eo) as [c4 [Hc4 Ho4]].
    eapply setval_free; [exact HF2| | | |eassumption]; eauto.
    rewrite (alike_solve _ _ _ (alike_trans _ _ _ HA (alike_st _ _ _ _ E3))). assumption.
Qed.

Lemma fmm_step_ev cfg st r :
  fmm_step HO cfg st = Ok r -> match r with None => True | Some (_, st') => ev (fs_g st) (fs_g st') end.
Proof.
  unfold fmm_step. destruct (hpop HO _ _) as [[m h1]|]; intros H; invb; [|exact Logic.I].
  refine (foldM_inv_partial (fun s => ev (fs_g st) (fs_g s)) _ _ _ _ _ _ E1).
  - cbn. eapply setst; eauto using ev_refl.
  - intros s y s1 _ HF Hs. eapply ev_trans; [exact HF|]. eapply fmm_neighbor_ev; eauto.
Qed.

Lemma fmm_loop_ev cfg goal fuel st log st' log' :
  fmm_loop HO fuel cfg goal st log = Ok (st', log') -> ev (fs_g st) (fs_g st').
Proof.
  revert st log; induction fuel as [|k IH]; intros st log H; cbn in H; [discriminate|].
  invb. pose proof (fmm_step_ev _ _ _ E) as HF. destruct x as [[m s]|].
  - destruct (m =? goal); invb; [exact HF|]. eapply ev_trans; eauto.
  - invb. apply ev_refl.
Qed.

Lemma fmm_run_ev fuel cfg goal g h0 st log :
  fmm_run HO fuel cfg goal init g h0 = Ok (st, log) -> ev g (fs_g st).
Proof.
  intros H. unfold fmm_run in H. invb.
  eapply ev_trans; [|eapply fmm_loop_ev; eauto].
  refine (foldM_inv_partial (fun s => ev g (fs_g s)) _ _ _ _ _ _ E); [apply ev_refl|].
  intros s i s1 Hi HF Hs. unfold fmm_init1 in Hs. invb. cbn.
  eapply ev_trans; [|eapply fmm_heur_ev; eauto]. eapply setval_init; eauto.
Qed.
End WithHeap.

(** *** sweeping *)
Lemma recIter_inv {S} (P : S -> Prop) f levels it s s' :
  (forall s i s1, P s -> f s i = Ok s1 -> P s1) -> P s -> recIter f levels it s = Ok s' -> P s'.
Proof.
  intros Hf. revert it s s'. induction levels as [|[is_ st] r IH]; intros it s s' Hs H; cbn in H; [eauto|].
  refine (foldM_inv_partial P _ _ _ _ Hs _ H). intros s1 i s2 _ H1 H2. eauto.
Qed.

Definition solve_evs (solve : sw_state -> Z -> res (sw_state (N := N))) :=
  forall s i s' c, getCell (sw_g s) i = Ok c -> isOccupied c = false ->
    solve s i = Ok s' -> ev (sw_g s) (sw_g s').

Lemma one_sweep_ev solve incs s s' : solve_evs solve ->
  one_sweep solve incs s = Ok s' -> ev (sw_g s) (sw_g s').
Proof.
  intros Hs H. unfold one_sweep in H.
  refine (recIter_inv (fun x => ev (sw_g s) (sw_g x)) _ _ _ _ _ _ (ev_refl _) H).
  intros s1 i s2 HF H1. unfold visit in H1. invb. destruct (isOccupied x) eqn:Eo; invb; auto.
  eapply ev_trans; [exact HF|]. eapply Hs; eauto.
Qed.

Lemma sweep_loop_ev solve fuel ms sw incs s r : solve_evs solve ->
  sweep_loop solve fuel ms sw incs s = Ok r -> ev (sw_g s) (sw_g (fst (fst r))).
Proof.
  intros Hs. revert sw incs s; induction fuel as [|k IH]; intros sw incs s H; cbn in H;
    destruct (sw_keep s && negb (sw_stop s) && (sw <? ms)); invb; try apply ev_refl.
  apply one_sweep_ev in E; [|exact Hs]. eapply ev_trans; [exact E|]. eauto.
Qed.

Lemma fsm_evs goal : solve_evs (fsm_solveForIdx goal).
Proof.
  intros s i s' c Hc Ho H. unfold fsm_solveForIdx in H. invb.
  destruct (isTimeBetterThan x0 x); invb.
  - cbn. eapply setval_free; eauto using ev_refl.
  - destruct (negb (nisnan x0) && negb (nisinf x0) && (i =? goal)); invb; apply ev_refl.
Qed.

Lemma lsm_evs goal : solve_evs (lsm_solveForIdx goal).
Proof.
  intros s i s' c Hc Ho H. unfold lsm_solveForIdx in H. invb.
  destruct (fmstate_eqb (c_state x) OPEN); invb; [|apply ev_refl].
  cbn. eapply setst; [|eassumption].
  destruct (isTimeBetterThan x0 (c_val x)); invb.
  - cbn. refine (foldM_inv_partial (fun g => ev (sw_g s) g) _ _ _ _ _ _ E5).
    + exact (setval_free _ _ _ _ _ _ (ev_refl _) Hc Ho E0 E3).
    + intros g j g1 _ HF Hg. apply bind_ok in Hg. destruct Hg as [v [_ Hg]]. destruct (isTimeBetterThan x0 v); invb; auto. eapply setst; eauto.
  - destruct (negb (nisnan x0) && negb (nisinf x0) && (i =? goal)); invb; apply ev_refl.
Qed.

Lemma fsm_run_ev fuel ms goal sw incs g r :
  fsm_run fuel ms goal init sw incs g = Ok r ->
  ev g (sw_g (fst (fst r))).
Proof.
  intros H. unfold fsm_run in H. invb. apply sweep_loop_ev in H; [|apply fsm_evs].
  eapply ev_trans; [|exact H]. cbn.
  refine (foldM_inv_partial (ev g) _ _ _ _ (ev_refl _) _ E).
  intros s i s1 Hi HF Hs. eapply setval_init; eauto.
Qed.

Lemma freeze_all_ev g g' : freeze_all g = Ok g' -> ev g g'.
Proof.
  unfold freeze_all. intros H. refine (foldM_inv_partial (ev g) _ _ _ _ (ev_refl _) _ H).
  intros s i s1 _ HF Hs. eapply setst; eauto.
Qed.

Lemma lsm_run_ev fuel ms goal sw incs g r :
  lsm_run fuel ms goal init sw incs g = Ok r ->
  ev g (sw_g (fst (fst r))).
Proof.
  intros H. unfold lsm_run in H. invb. apply sweep_loop_ev in H; [|apply lsm_evs].
  eapply ev_trans; [|exact H]. cbn. apply freeze_all_ev in E.
  refine (foldM_inv_partial (ev g) _ _ _ _ E _ E0).
  intros s i s1 Hi HF Hs. unfold lsm_init1 in Hs. invb.
  refine (foldM_inv_partial (ev g) _ _ _ _ _ _ Hs).
  - eapply setval_init; eauto.
  - intros s2 j s3 _ HF2 H2. eapply setst; eauto.
Qed.

(** *** DDQM *)
Lemma ddqm_neighbor_ev (t : N) (s : dq_state (N := N)) n s' : ddqm_neighbor t s n = Ok s' -> ev (dq_g s) (dq_g s').
Proof.
  unfold ddqm_neighbor. intros H. invb.
  destruct (fmstate_eqb (c_state x) FROZEN && isTimeBetterThan t (c_val x)); invb; [|apply ev_refl].
  destruct (isTimeBetterThan t (dq_th s)); invb; cbn; eapply setst; eauto using ev_refl.
Qed.

Lemma ddqm_pop1_ev goal (s : dq_state (N := N)) idx s' : ddqm_pop1 goal s idx = Ok s' -> ev (dq_g s) (dq_g s').
Proof.
  unfold ddqm_pop1. intros H. invb. destruct (isOccupied x) eqn:Eo; invb; [apply ev_refl|].
  cbn. eapply setst; [|eassumption].
  destruct (isTimeBetterThan x0 (c_val x)); invb; [|apply ev_refl].
  refine (foldM_inv_partial (fun s1 : dq_state (N := N) => ev (dq_g s) (dq_g s1)) _ _ _ _ _ _ E1).
  - cbn. eapply setval_free; eauto using ev_refl.
  - intros s1 n s2 _ HF Hn. eapply ev_trans; [exact HF|]. eapply ddqm_neighbor_ev; eauto.
Qed.

Lemma ddqm_loop_ev fuel goal (s s' : dq_state (N := N)) : ddqm_loop fuel goal s = Ok s' -> ev (dq_g s) (dq_g s').
Proof.
  revert s; induction fuel as [|k IH]; intros s H; cbn in H; [discriminate|].
  destruct (dq_lo s) as [|idx q] eqn:El.
  - destruct (dq_hi s), (dq_stop s); invb; cbn; try apply ev_refl; apply IH in H; exact H.
  - destruct (dq_stop s).
    + destruct (dq_hi s); invb; apply ev_refl.
    + invb. apply ddqm_pop1_ev in E. cbn in E. eapply ev_trans; [exact E|]. auto.
Qed.

Lemma ddqm_run_ev fuel goal th step g s :
  ddqm_run fuel goal init th step g = Ok s -> ev g (dq_g s).
Proof.
  intros H. unfold ddqm_run in H. invb. apply freeze_all_ev in E. destruct x0 as [g1 q].
  assert (HF : ev g g1).
  { refine (foldM_inv_partial (fun s : grid N * list Z => ev g (fst s)) _ _ _ (g1, q) _ _ E0); [exact E|].
    intros [g2 q2] i s1 Hi HF Hs. cbn in HF. unfold ddqm_init1 in Hs. invb.
    refine (foldM_inv_partial (fun s : grid N * list Z => ev g (fst s)) _ _ _ _ _ _ Hs).
    - cbn. eapply setval_init; eauto.
    - intros [g3 q3] j s3 _ HF2 H2. cbn in HF2. invb. destruct (isOccupied x2); invb; [exact HF2|].
      cbn. eapply setst; eauto. }
  destruct q as [|a q]; invb; [exact HF|]. eapply ev_trans; [exact HF|].
  apply ddqm_loop_ev in H. exact H.
Qed.

(** *** FIM *)
Definition fim_inv g0 (g : grid N) (l : list Z) : Prop :=
  ev g0 g /\ forall x, In x l -> free g0 x.

Lemma fim_neighbor_inv g0 s j s' :
  fim_inv g0 (fst s) (snd s) -> fim_neighbor s j = Ok s' -> fim_inv g0 (fst s') (snd s').
Proof.
  destruct s as [g ins]. unfold fim_neighbor. cbn. intros [HF Hl] H. invb.
  destruct (negb (fmstate_eqb (c_state x) NARROW)); cbn [andb] in H; invb; [|split; assumption].
  destruct (isOccupied x) eqn:Eo; cbn [negb] in H; invb; [split; assumption|].
  destruct (isTimeBetterThan x0 (c_val x)); invb; [|split; assumption].
  cbn. split.
  - eapply setst; [|eassumption]. eapply setval_free; eauto.
  - intros y Hy. apply in_app_or in Hy. destruct Hy as [Hy|[<-|[]]]; [auto|].
    eapply ev_free_inv; [exact HF|]. exists x. auto.
Qed.

Lemma fim_pass_inv E goal g0 g before after stop ub r :
  fim_inv g0 g (before ++ after) -> fim_pass E goal g before after stop ub = Ok r ->
  fim_inv g0 (fst (fst (fst r))) (snd (fst (fst r))).
Proof.
  revert g before stop ub; induction after as [|x l IH]; intros g before stop ub [HF Hl] H; cbn in H.
  - invb. cbn. rewrite app_nil_r in Hl. split; assumption.
  - invb.
    assert (Hx : ev g0 x2).
    { destruct (ev_free _ _ _ HF (Hl x ltac:(apply in_or_app; right; left; reflexivity))) as [c [Hc Ho]].
      eapply setval_free; eauto. }
    destruct (nabs (nsub x0 x1) <=? E)%num; invb.
    + destruct x4 as [g2 ins]. invb.
      assert (Hinv : fim_inv g0 g2 ins).
      { apply (foldM_inv_partial (fun s => fim_inv g0 (fst s) (snd s)) _ _ _ (g2, ins)) with (3 := E4).
        - split; [exact Hx|intros y []].
        - intros s j s1 _ Hs Hj. eapply fim_neighbor_inv; eauto. }
      eapply IH; [|exact H]. destruct Hinv as [HF2 Hins]. split; [eapply setst; eauto|].
      intros y Hy. rewrite <- app_assoc in Hy. apply in_app_or in Hy. destruct Hy as [Hy|Hy].
      * apply Hl, in_or_app; auto.
      * apply in_app_or in Hy. destruct Hy as [Hy|Hy]; [auto|]. apply Hl, in_or_app; right; right; exact Hy.
    + eapply IH; [|exact H]. split; [exact Hx|]. rewrite <- app_assoc. exact Hl.
Qed.

Lemma fim_loop_inv fuel E goal g0 g l stop ub r :
  fim_inv g0 g l -> fim_loop fuel E goal g l stop ub = Ok r -> fim_inv g0 (fst (fst r)) (snd (fst r)).
Proof.
  revert g l stop ub; induction fuel as [|k IH]; intros g l stop ub Hi H; cbn in H;
    (destruct stop; [invb; exact Hi|]); (destruct l as [|x l]; [invb; exact Hi|]); [discriminate|].
  apply bind_ok in H. destruct H as [[[[g1 l1] st1] ub1] [H1 H2]].
  apply (fim_pass_inv E goal g0 g [] (x :: l)) in H1; [|exact Hi]. eauto.
Qed.

Lemma fim_init_inv g s : foldM fim_init1 init (mkFim g []) = Ok s -> fim_inv g (fi_g s) (fi_l s).
Proof.
  intros Hs.
  refine (foldM_inv_partial (fun s : fim_state (N := N) => fim_inv g (fi_g s) (fi_l s)) _ _ _ _ _ _ Hs).
    - split; [apply ev_refl|intros y []].
    - intros s1 i s2 Hi [HF Hl] H2. unfold fim_init1 in H2. invb.
      refine (foldM_inv_partial (fun s : fim_state (N := N) => fim_inv g (fi_g s) (fi_l s)) _ _ _ _ _ _ H2).
      + split; [|exact Hl]. cbn. eapply setst; [|eassumption]. eapply setval_init; eauto.
      + intros s3 j s4 _ [HF3 Hl3] H4. invb.
        destruct (fmstate_eqb (c_state x2) OPEN); cbn [andb] in H4; invb; [|split; assumption].
        destruct (isOccupied x2) eqn:Eo; cbn [negb] in H4; invb; [split; assumption|].
        cbn. split; [eapply setst; eauto|]. intros y Hy. apply in_app_or in Hy.
        destruct Hy as [Hy|[<-|[]]]; [auto|]. eapply ev_free_inv; [exact HF3|]. exists x2; auto.
Qed.

Lemma fim_init_ev g s : foldM fim_init1 init (mkFim g []) = Ok s -> ev g (fi_g s).
Proof. intros H. apply fim_init_inv in H. apply H. Qed.

Lemma fim_run_ev fuel E goal g r :
  fim_run fuel E goal init g = Ok r -> ev g (fst (fst r)).
Proof.
  intros H. unfold fim_run in H. apply bind_ok in H. destruct H as [s [Hs H]].
  pose proof (fim_init_inv _ _ Hs) as Hi.
  apply (fim_loop_inv _ _ _ _ _ _ _ _ _ Hi) in H. apply H.
Qed.

(** *** GMM *)
Lemma gmm_skip_occ (c : cell N) : gmm_skip c = false -> isOccupied c = false.
Proof. unfold gmm_skip. destruct (fmstate_eqb _ _), (isOccupied c); cbn; congruence. Qed.

Lemma gmm_first_ev tm g i g' : gmm_first tm g i = Ok g' -> ev g g'.
Proof.
  unfold gmm_first. intros H. invb. destruct (nleb x tm); invb; [|apply ev_refl].
  refine (foldM_inv_partial (ev g) _ _ _ _ (ev_refl _) _ H).
  intros g1 j g2 _ HF Hg. invb. destruct (gmm_skip x1) eqn:Es; invb; [exact HF|].
  destruct (nltb x2 (c_val x1)); invb; [|exact HF]. apply gmm_skip_occ in Es. eapply setval_free; eauto.
Qed.

Lemma gmm_second_nb_ev g0 s j s' :
  ev g0 (fst s) -> gmm_second_nb s j = Ok s' -> ev g0 (fst s').
Proof.
  destruct s as [g p]. unfold gmm_second_nb. cbn [fst]. intros HF H. invb.
  destruct (gmm_skip x) eqn:Es; invb; [exact HF|]. apply gmm_skip_occ in Es.
  assert (HF1 : ev g0 x1).
  { destruct (nltb x0 (c_val x)); invb; [|exact HF]. eapply setval_free; eauto. }
  destruct (fmstate_eqb (c_state x) OPEN); invb; [|exact HF1]. cbn. eapply setst; eauto.
Qed.

Lemma gmm_second_ev tm goal g0 g kept l pushed stop r :
  ev g0 g -> gmm_second tm goal g kept l pushed stop = Ok r -> ev g0 (fst (fst r)).
Proof.
  revert g kept pushed stop; induction l as [|i l IH]; intros g kept pushed stop HF H; cbn in H.
  - invb. exact HF.
  - invb. destruct (nleb x tm); invb.
    + destruct x1 as [g1 p1]. invb.
      assert (HF1 : ev g0 g1).
      { apply (foldM_inv_partial (fun s => ev g0 (fst s)) _ _ _ (g1, p1)) with (3 := E1); [exact HF|].
        intros s j s1 _ Hs Hj. eapply gmm_second_nb_ev; eauto. }
      eapply IH; [|exact H]. eapply setst; eauto.
    + eauto.
Qed.

Lemma gmm_loop_ev fuel dt goal g0 s stop s' :
  ev g0 (gm_g s) -> gmm_loop fuel dt goal s stop = Ok s' -> ev g0 (gm_g s').
Proof.
  revert s stop; induction fuel as [|k IH]; intros s stop HF H; cbn in H;
    (destruct stop; [invb; exact HF|]); (destruct (gm_l s) as [|x l] eqn:El; [invb; exact HF|]); [discriminate|].
  apply bind_ok in H. destruct H as [g1 [H1 H]].
  apply bind_ok in H. destruct H as [[[g2 l2] stop2] [H2 H]].
  eapply IH; [|exact H]. cbn. apply (gmm_second_ev _ _ g0) in H2; [exact H2|].
  refine (foldM_inv_partial (ev g0) _ _ _ _ HF _ H1).
  intros g3 i g4 _ HF3 H3. eapply ev_trans; [exact HF3|]. eapply gmm_first_ev; eauto.
Qed.

Lemma gmm_run_ev fuel dt goal g s :
  gmm_run fuel dt goal init g = Ok s -> ev g (gm_g s).
Proof.
  intros H. unfold gmm_run in H. apply bind_ok in H. destruct H as [s0 [Hs H]].
  eapply gmm_loop_ev; [|exact H].
  refine (foldM_inv_partial (fun s : gmm_state (N := N) => ev g (gm_g s)) _ _ _ _ _ _ Hs); [apply ev_refl|].
  intros s1 i s2 Hi HF H2. unfold gmm_init1 in H2. invb.
  refine (foldM_inv_partial (fun s : gmm_state (N := N) => ev g (gm_g s)) _ _ _ _ _ _ H2).
  - cbn. eapply setst; [|eassumption]. eapply setval_init; eauto.
  - intros s3 j s4 _ HF3 H4. invb.
    destruct (fmstate_eqb (c_state x2) FROZEN); cbn [orb] in H4; invb; [exact HF3|].
    destruct (isOccupied x2) eqn:Eo; invb; [exact HF3|].
    cbn. eapply setst; [|eassumption]. eapply setval_free; eauto.
Qed.

(** *** UFMM *)
Lemma uf_push_ev (s : uf_state (N := N)) i s' : uf_push s i = Ok s' -> ev (uf_g s) (uf_g s').
Proof.
  unfold uf_push. intros H. apply bind_ok in H. destruct H as [t [_ H]].
  apply bind_ok in H. destruct H as [[q b] [_ H]]. invb. cbn. eapply setbk; eauto using ev_refl.
Qed.

Lemma uf_increase_ev (s : uf_state (N := N)) i s' : uf_increase s i = Ok s' -> ev (uf_g s) (uf_g s').
Proof.
  unfold uf_increase. intros H. apply bind_ok in H. destruct H as [t [_ H]].
  apply bind_ok in H. destruct H as [[q b] [_ H]]. invb. cbn. eapply setbk; eauto using ev_refl.
Qed.

Lemma ufmm_neighbor_ev (s : uf_state (N := N)) j s' : ufmm_neighbor s j = Ok s' -> ev (uf_g s) (uf_g s').
Proof.
  unfold ufmm_neighbor. intros H. invb.
  destruct (fmstate_eqb (c_state x) FROZEN); cbn [orb] in H; invb; [apply ev_refl|].
  destruct (isOccupied x) eqn:Eo; invb; [apply ev_refl|].
  destruct (fmstate_eqb (c_state x) NARROW).
  - destruct (isTimeBetterThan x0 (c_val x)); invb; [|apply ev_refl].
    apply uf_increase_ev in H. cbn in H. eapply ev_trans; [|exact H].
    eapply setval_free; eauto using ev_refl.
  - invb. apply uf_push_ev in H. cbn in H. eapply ev_trans; [|exact H].
    assert (HF : ev (uf_g s) x1) by (eapply setst; eauto using ev_refl).
    destruct (ev_occ_false _ _ _ _ HF E Eo) as [c2 [Hc2 Ho2]].
    eapply setval_free; [exact HF|exact Hc2|exact Ho2| |eassumption].
    rewrite (alike_solve _ _ _ (alike_st _ _ _ _ E1)). assumption.
Qed.

Lemma ufmm_step_ev (s : uf_state (N := N)) r : ufmm_step s = Ok r -> ev (uf_g s) (uf_g (snd r)).
Proof.
  unfold ufmm_step. intros H. apply bind_ok in H. destruct H as [[q1 m] [_ H]]. invb. cbn.
  refine (foldM_inv_partial (fun s1 : uf_state (N := N) => ev (uf_g s) (uf_g s1)) _ _ _ _ _ _ E1).
  - cbn. eapply setst; eauto using ev_refl.
  - intros s1 j s2 _ HF Hj. eapply ev_trans; [exact HF|]. eapply ufmm_neighbor_ev; eauto.
Qed.

Lemma ufmm_loop_ev fuel goal (s : uf_state (N := N)) log r : ufmm_loop fuel goal s log = Ok r -> ev (uf_g s) (uf_g (fst r)).
Proof.
  revert s log; induction fuel as [|k IH]; intros s log H; cbn in H;
    (destruct (uq_empty (uf_q s)); [invb; apply ev_refl|]); [discriminate|].
  apply bind_ok in H. destruct H as [[m s1] [H1 H]]. apply ufmm_step_ev in H1. cbn in H1.
  destruct (m =? goal); invb; [exact H1|]. eapply ev_trans; eauto.
Qed.

Lemma ufmm_run_ev fuel goal g q r :
  ufmm_run fuel goal init g q = Ok r -> ev g (uf_g (fst r)).
Proof.
  intros H. unfold ufmm_run in H. apply bind_ok in H. destruct H as [s0 [Hs H]].
  apply ufmm_loop_ev in H. eapply ev_trans; [|exact H].
  refine (foldM_inv_partial (fun s : uf_state (N := N) => ev g (uf_g s)) _ _ _ _ _ _ Hs); [apply ev_refl|].
  intros s1 i s2 Hi HF H2. invb. apply uf_push_ev in H2. cbn in H2.
  eapply ev_trans; [|exact H2]. eapply setval_init; eauto.
Qed.

End Evolve.

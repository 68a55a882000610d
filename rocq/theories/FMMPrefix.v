(** FMMPrefix.v - frozen cells never change; stopping at a goal is a prefix
    (C19 second half, C22).  Any arithmetic, any heap, any heuristic. *)
From Verif Require Import Base BaseFacts Num NumLaws Grid GridUpd Spec Obs Eikonal FMMModel Frame.
Open Scope Z_scope.

Section Prefix.
Context {N : Num}.
Variable HO : HeapOps N.
Variable cfg : fmm_cfg (N := N).

(** cells frozen in g are frozen with the same time in g' *)
Definition keeps_frozen (g g' : grid N) : Prop :=
  forall i c, getCell g i = Ok c -> c_state c = FROZEN ->
    exists c', getCell g' i = Ok c' /\ c_state c' = FROZEN /\ c_val c' = c_val c.

Lemma kf_refl g : keeps_frozen g g.
Proof. intros i c Hc Hs. eauto. Qed.
Lemma kf_trans g1 g2 g3 : keeps_frozen g1 g2 -> keeps_frozen g2 g3 -> keeps_frozen g1 g3.
Proof.
  intros H1 H2 i c Hc Hs. destruct (H1 i c Hc Hs) as [c2 [A [B C]]].
  destruct (H2 i c2 A B) as [c3 [D [E F]]]. exists c3. split; [exact D|]. split; [exact E|congruence].
Qed.

Lemma kf_upd g j f g' : updCell g j f = Ok g' ->
  (forall c, getCell g j = Ok c -> c_state c = FROZEN -> c_state (f c) = FROZEN /\ c_val (f c) = c_val c) ->
  keeps_frozen g g'.
Proof.
  intros H Hf i c Hc Hs. rewrite (updCell_get _ _ _ _ i H). destruct (Z.eqb_spec j i) as [<-|Hne].
  - rewrite Hc. exists (f c). split; [reflexivity|]. apply Hf; assumption.
  - exists c. auto.
Qed.

Lemma kf_heur g j g' : fmm_heur cfg g j = Ok g' -> keeps_frozen g g'.
Proof.
  unfold fmm_heur. destruct (fc_strat cfg); intros H; invb; [apply kf_refl| |];
    (eapply kf_upd; [eassumption|]; auto).
Qed.

Lemma heur_state g j g' c c' : fmm_heur cfg g j = Ok g' -> getCell g j = Ok c -> getCell g' j = Ok c' ->
  c_state c' = c_state c.
Proof.
  unfold fmm_heur. destruct (fc_strat cfg); intros H Hc Hc'; invb; [congruence| |];
    unfold setHeuristicTime in H; rewrite (updCell_get _ _ _ _ j H), Z.eqb_refl, Hc in Hc'; injection Hc' as <-; reflexivity.
Qed.

Lemma kf_neighbor st j st' : fmm_neighbor HO cfg st j = Ok st' -> keeps_frozen (fs_g st) (fs_g st').
Proof.
  unfold fmm_neighbor. intros H. invb.
  destruct (fmstate_eqb (c_state x) FROZEN) eqn:EF; cbn [orb] in H; invb; [apply kf_refl|].
  destruct (isOccupied x); invb; [apply kf_refl|].
  pose proof (kf_heur _ _ _ E1) as HF. pose proof (heur_state _ _ _ _ _ E1 E E2) as Hst.
  assert (Hnf : c_state x2 <> FROZEN) by (rewrite Hst; destruct (c_state x); discriminate).
  destruct (fmstate_eqb (c_state x2) NARROW).
  - destruct (isTimeBetterThan x0 (c_val x2)); invb; [|exact HF]. cbn.
    eapply kf_trans; [exact HF|]. eapply kf_upd; [eassumption|]. intros c Hc Hs. congruence.
  - invb. cbn. eapply kf_trans; [exact HF|]. eapply kf_trans.
    + eapply kf_upd; [eassumption|]. intros c Hc Hs. congruence.
    + eapply kf_upd; [eassumption|]. intros c Hc Hs. exfalso.
      unfold setState in E3. rewrite (updCell_get _ _ _ _ j E3), Z.eqb_refl, E2 in Hc. injection Hc as <-.
      discriminate Hs.
Qed.

Lemma step_frozen st m st' : fmm_step HO cfg st = Ok (Some (m, st')) ->
  keeps_frozen (fs_g st) (fs_g st') /\ exists c, getCell (fs_g st') m = Ok c /\ c_state c = FROZEN.
Proof.
  unfold fmm_step. destruct (hpop HO _ _) as [[m' h1]|]; intros H; invb; [|discriminate].
  assert (HK : keeps_frozen x0 (fs_g st')).
  { refine (foldM_inv_partial (fun s => keeps_frozen x0 (fs_g s)) _ _ _ _ _ _ E1); [apply kf_refl|].
    intros s j s1 _ HK Hj. eapply kf_trans; [exact HK|]. eapply kf_neighbor; eauto. }
  split.
  - eapply kf_trans; [|exact HK]. eapply kf_upd; [eassumption|]. auto.
  - pose proof (updCell_get _ _ _ _ m E0) as Hg. rewrite Z.eqb_refl in Hg.
    pose proof E0 as E0'. apply updCell_ok in E0'. destruct E0' as [c [Hc _]]. rewrite Hc in Hg.
    destruct (HK m _ Hg eq_refl) as [c' [A [B _]]]. eauto.
Qed.

(** the log of extracted cells lists frozen cells *)
Definition log_frozen (g : grid N) (log : list Z) : Prop :=
  forall i, In i log -> exists c, getCell g i = Ok c /\ c_state c = FROZEN.

Lemma log_frozen_step st m st' log : log_frozen (fs_g st) log ->
  fmm_step HO cfg st = Ok (Some (m, st')) -> log_frozen (fs_g st') (m :: log).
Proof.
  intros HL H. destruct (step_frozen _ _ _ H) as [HK Hm]. intros i [<-|Hi]; [exact Hm|].
  destruct (HL i Hi) as [c [Hc Hs]]. destruct (HK i c Hc Hs) as [c' [A [B _]]]. eauto.
Qed.

Lemma loop_frozen fuel goal st log st' log' :
  log_frozen (fs_g st) log -> fmm_loop HO fuel cfg goal st log = Ok (st', log') ->
  keeps_frozen (fs_g st) (fs_g st') /\ log_frozen (fs_g st') log' /\ exists l, log' = l ++ log.
Proof.
  revert st log; induction fuel as [|k IH]; intros st log HL H; cbn in H; [discriminate|]. invb.
  destruct x as [[m s]|]; invb.
  - pose proof (log_frozen_step _ _ _ _ HL E) as HL'. destruct (step_frozen _ _ _ E) as [HK _].
    destruct (m =? goal); invb.
    + split; [exact HK|]. split; [exact HL'|]. exists [m]. reflexivity.
    + destruct (IH s (m :: log) HL' H) as [A [B [l C]]]. split; [eapply kf_trans; eauto|].
      split; [exact B|]. exists (l ++ [m]). rewrite C, <- app_assoc. reflexivity.
  - split; [apply kf_refl|]. split; [exact HL|]. exists []. reflexivity.
Qed.

(** the full run continues from where the run with a goal stopped *)
Lemma loop_prefix goal full fuel fuel' st log st1 log1 st2 log2 :
  log_frozen (fs_g st) log ->
  fmm_loop HO fuel cfg goal st log = Ok (st1, log1) ->
  fmm_loop HO fuel' cfg full st log = Ok (st2, log2) -> ~ In full log1 ->
  (st1 = st2 /\ log1 = log2 \/ exists r, log1 = goal :: r) /\
  (exists l, log2 = l ++ log1) /\ keeps_frozen (fs_g st1) (fs_g st2).
Proof.
  revert fuel' st log; induction fuel as [|k IH]; intros fuel' st log HL H1 H2 Hn; cbn in H1; [discriminate|].
  destruct fuel' as [|k']; cbn in H2; [discriminate|].
  invb. rewrite E in E0. injection E0 as <-. destruct x as [[m s]|]; cbn in H1; invb.
  - pose proof (log_frozen_step _ _ _ _ HL E) as HL'.
    assert (Hm : (m =? full) = false).
    { apply Z.eqb_neq. intros ->. apply Hn.
      destruct (full =? goal); invb; [left; reflexivity|].
      destruct (loop_frozen _ _ _ _ _ _ HL' H1) as [_ [_ [l ->]]]. apply in_or_app; right; left; reflexivity. }
    rewrite Hm in H2. destruct (Z.eqb_spec m goal) as [->|Hne]; invb.
    + destruct (loop_frozen _ _ _ _ _ _ HL' H2) as [A [_ [l B]]]. split; [right; eauto|].
      split; [exists l; exact B|exact A].
    + eauto.
  - split; [left; auto|]. split; [exists []; reflexivity|apply kf_refl].
Qed.

Lemma goal_prefix goal init g h0 fuel fuel' st1 log1 st2 log2 :
  Z.of_nat (length (g_cells g)) < 4294967296 ->
  fmm_run HO fuel cfg goal init g h0 = Ok (st1, log1) ->
  fmm_run HO fuel' cfg noGoal init g h0 = Ok (st2, log2) ->
  (st1 = st2 /\ log1 = log2 \/ exists r, log1 = goal :: r) /\
  (exists l, log2 = l ++ log1) /\
  (forall i, In i log1 -> exists t, getArrivalTime (fs_g st1) i = Ok t /\ getArrivalTime (fs_g st2) i = Ok t).
Proof.
  intros Hsz H1 H2. pose proof (fmm_run_frame (fun _ => True) HO _ _ _ _ _ _ _ _ (fun _ _ => Logic.I) H1) as HF.
  unfold fmm_run in *. apply bind_ok in H1. destruct H1 as [s [Hs H1]]. rewrite Hs in H2. cbn in H2.
  assert (HL : log_frozen (fs_g s) []) by (intros i []).
  destruct (loop_frozen _ _ _ _ _ _ HL H1) as [_ [HL1 _]].
  destruct (loop_prefix goal noGoal _ _ _ _ _ _ _ _ HL H1 H2) as [A [B C]].
  { intros Hin. destruct (HL1 _ Hin) as [c [Hc _]]. apply getCell_range in Hc.
    destruct HF as [_ [_ [_ [_ [Hl _]]]]]. rewrite Hl in Hc. unfold noGoal in Hc. lia. }
  split; [exact A|]. split; [exact B|]. intros i Hi. destruct (HL1 i Hi) as [c [Hc Hst]].
  destruct (C i c Hc Hst) as [c' [D [_ E]]]. exists (c_val c). unfold getArrivalTime. rewrite Hc, D. cbn. rewrite E. auto.
Qed.

End Prefix.

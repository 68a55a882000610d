(** SweepX.v - FSM, LSM and DDQM in exact arithmetic refine the relaxation of
    Relax.v: their fixed points are solutions (C31, C33, C35). *)
From Coq Require Import Reals Lra Permutation FunctionalExtensionality.
From Verif Require Import Base BaseFacts Num NumXR NumLaws NumWf Grid GridFacts GridUpd GridMore Spec Obs Eikonal
  SweepModel QueueModel SweepOrder FMMModel HeapRef HeapLaws Frame FMMStruct EikR Solution XGrid FMMAbs FMMX Relax Examples Term.
Open Scope Z_scope.

Lemma better_val (g : grid XR) i c r : times_ok g -> getCell g i = Ok c ->
  (isTimeBetterThan (XFin r : XR) (c_val c) = true <-> better r (times g i)).
Proof.
  intros Hok Hc. rewrite (times_val g i c Hok Hc). destruct (times g i) as [t|]; cbn [better].
  - apply better_X.
  - unfold isTimeBetterThan. rewrite xr_margin. cbn. tauto.
Qed.

Lemma inf_not_better (x : XR) : isTimeBetterThan (XPInf : XR) x = false.
Proof. unfold isTimeBetterThan. rewrite xr_margin. destruct x; reflexivity. Qed.

Section SX.
Variable dims : list Z.
Hypothesis Hd2 : dims2 dims.
Hypothesis Hlt : 2 * box_size dims <= 4294967296.
Variable init : list Z.
Hypothesis Hrng : forall i, In i init -> 0 <= i < box_size dims.
Variable g0 : grid XR.
Hypothesis Hg0 : grid_ok dims g0.
Hypothesis Hreal : reals_ok g0.
Hypothesis Hfresh : forall i c, getCell g0 i = Ok c -> c_val c = XPInf.

Let Hp : proper dims := dims2_proper' dims Hd2.
Notation fr := (free g0).
Notation f := (slow g0).
Let Hf : forall i, fr i -> (0 < f i)%R.
Proof. intros i Hi. apply slow_pos; assumption. Qed.

Record GX (g : grid XR) : Prop := {
  gx_f : frame (fun i => In i init) g0 g;
  gx_t : times_ok g;
  gx_s : Sup dims init fr f (times g)
}.

Lemma gx_ok g : GX g -> grid_ok dims g.
Proof. intros [F _ _]. eapply frame_grid_ok; eauto. Qed.

Lemma gx_free g i c : GX g -> getCell g i = Ok c -> isOccupied c = false -> fr i.
Proof. intros [F _ _] Hc Ho. apply (frame_free_inv _ _ _ _ F). exists c; auto. Qed.

Lemma gx_free' g i c : GX g -> getCell g i = Ok c -> fr i -> isOccupied c = false.
Proof.
  intros [F _ _] Hc Hfr. apply (frame_free _ _ _ _ F) in Hfr. destruct Hfr as [c' [Hc' Ho]]. congruence.
Qed.

Lemma gx_state g i s g' : GX g -> setState g i s = Ok g' -> GX g' /\ times g' = times g.
Proof.
  intros [F T S] H. assert (E : times g' = times g) by (eapply times_upd_keep; [exact H|reflexivity]).
  split; [|exact E]. constructor.
  - eapply frame_trans; [exact F|]. eapply setState_frame; eauto.
  - eapply upd_times_ok; eauto.
  - rewrite E. exact S.
Qed.

(** what solveEikonal and the comparison decide *)
Lemma relax_X g i c : GX g -> 0 <= i < box_size dims -> getCell g i = Ok c -> isOccupied c = false ->
  exists u, solveEikonal g i = Ok u /\
    if isTimeBetterThan u (c_val c)
    then exists r, u = XFin r /\ better r (times g i) /\ ~ In i init /\ eik dims (f i) (times g) i = Some r /\
         exists g', setArrivalTime g i u = Ok g' /\ GX g' /\ times g' = upd (times g) i r /\ settled dims f (upd (times g) i r) i
    else ~ In i init -> settled dims f (times g) i.
Proof.
  intros G Hi Hc Ho. pose proof G as [F T S].
  pose proof (gx_free _ _ _ G Hc Ho) as Hfr.
  rewrite (solveEikonal_X dims g i Hd2 Hlt (gx_ok _ G) T (frame_reals _ _ _ F Hreal) (ex_intro _ c (conj Hc Ho)) Hi).
  rewrite (frame_slow _ _ _ F). eexists. split; [reflexivity|].
  destruct (eik dims (f i) (times g) i) as [r|] eqn:E; cbn [ox].
  - destruct (isTimeBetterThan (XFin r : XR) (c_val c)) eqn:Eb.
    + apply (better_val g i c r T Hc) in Eb. exists r. split; [reflexivity|]. split; [exact Eb|].
      destruct (sup_update dims init fr f Hp Hf _ i r S Hfr Hi E Eb) as [S' [Hni Hr]].
      split; [exact Hni|]. split; [reflexivity|].
      destruct (updCell_in g i c (fun c => with_val c (XFin r : XR)) Hc) as [g' Hg'].
      exists g'. split; [exact Hg'|]. pose proof (times_set g i r g' Hg') as ET. split; [|split; [exact ET|]].
      * constructor.
        -- eapply frame_trans; [exact F|]. eapply setArrivalTime_frame; [exact Hg'|]. right. intros; congruence.
        -- eapply (set_times_ok g g' i r); eauto. lra.
        -- rewrite ET. exact S'.
      * apply (settled_updated dims fr f Hp Hf); auto.
    + intros Hni. apply (settled_not_better dims init fr f Hp Hf); auto. intros u Hu Hb.
      assert (u = r) by congruence. subst u. apply (better_val g i c r T Hc) in Hb. congruence.
  - rewrite inf_not_better. intros Hni. apply (settled_not_better dims init fr f Hp Hf); auto. intros u Hu. congruence.
Qed.

(** ** initial state *)
Lemma times0 g : g0 = g -> forall i, times g i = None.
Proof.
  intros <- i. unfold times, getArrivalTime. destruct (getCell g0 i) as [c|] eqn:E; [|reflexivity].
  cbn. rewrite (Hfresh i c E). reflexivity.
Qed.

(** during the initialisation, the sources [pre] are set *)
Record GI0 (pre : list Z) (g : grid XR) : Prop := {
  gi_f : frame (fun i => In i init) g0 g;
  gi_t : times_ok g;
  gi_v : forall i, times g i = if in_dec Z.eq_dec i pre then Some 0%R else None
}.

Lemma gi0_start : GI0 [] g0.
Proof.
  constructor.
  - apply frame_refl.
  - intros i c Hc. left. exact (Hfresh i c Hc).
  - intros i. destruct (in_dec Z.eq_dec i []) as [[]|_]. apply times0. reflexivity.
Qed.

Lemma gi0_state pre g i s g' : GI0 pre g -> setState g i s = Ok g' -> GI0 pre g'.
Proof.
  intros [F T V] H. assert (E : times g' = times g) by (eapply times_upd_keep; [exact H|reflexivity]).
  constructor.
  - eapply frame_trans; [exact F|]. eapply setState_frame; eauto.
  - eapply upd_times_ok; eauto.
  - intros j. rewrite E. apply V.
Qed.

Lemma gi0_src pre g i : GI0 pre g -> In i init -> exists g', setArrivalTime g i (n0 : XR) = Ok g' /\ GI0 (pre ++ [i]) g'.
Proof.
  intros [F T V] Hi. pose proof (frame_grid_ok _ _ _ _ F Hg0) as Hg.
  destruct (getCell_in dims g i Hg (Hrng i Hi)) as [c Hc].
  destruct (updCell_in g i c (fun c => with_val c (n0 : XR)) Hc) as [g' Hg']. exists g'. split; [exact Hg'|].
  constructor.
  - eapply frame_trans; [exact F|]. eapply setArrivalTime_frame; [exact Hg'|]. left; exact Hi.
  - eapply (set_times_ok g g' i 0); eauto. lra.
  - intros j. rewrite (times_set g i 0 g' Hg'). unfold upd. destruct (Z.eq_dec j i) as [->|Hne].
    + destruct (in_dec Z.eq_dec i (pre ++ [i])) as [_|H]; [reflexivity|]. exfalso; apply H, in_or_app; right; left; reflexivity.
    + rewrite V. destruct (in_dec Z.eq_dec j pre) as [H|H], (in_dec Z.eq_dec j (pre ++ [i])) as [K|K]; try reflexivity.
      * exfalso; apply K, in_or_app; auto.
      * apply in_app_or in K. destruct K as [K|[K|[]]]; [contradiction|congruence].
Qed.

Lemma gi0_gx g : GI0 init g -> GX g.
Proof. intros [F T V]. constructor; auto. apply sup_start; auto. Qed.

(** ** FSM *)
Definition unset (goal : Z) : Prop := ~ (0 <= goal < box_size dims).

Lemma fsm_visit goal s i : GX (sw_g s) -> 0 <= i < box_size dims ->
  exists s', visit (fsm_solveForIdx goal) s i = Ok s' /\ GX (sw_g s') /\
   (unset goal -> sw_stop s' = sw_stop s) /\
   ((sw_keep s' = true) \/
    (sw_keep s' = sw_keep s /\ sw_g s' = sw_g s /\ (fr i -> ~ In i init -> settled dims f (times (sw_g s)) i))).
Proof.
  intros G Hi. unfold visit. destruct (getCell_in dims (sw_g s) i (gx_ok _ G) Hi) as [c Hc]. rewrite Hc. cbn [bind].
  destruct (isOccupied c) eqn:Eo.
  { exists s. split; [reflexivity|]. split; [exact G|]. split; [auto|]. right. split; [reflexivity|]. split; [reflexivity|].
    intros H. apply (gx_free' _ _ _ G Hc) in H. congruence. }
  unfold fsm_solveForIdx, getArrivalTime. rewrite Hc. cbn [bind].
  destruct (relax_X _ _ _ G Hi Hc Eo) as [u [Hu Hcase]]. rewrite Hu. cbn [bind].
  destruct (isTimeBetterThan u (c_val c)).
  - destruct Hcase as [r [-> [_ [_ [_ [g' [Hg' [G' [ET _]]]]]]]]]. rewrite Hg'. cbn [bind].
    eexists. split; [reflexivity|]. cbn. auto.
  - destruct (negb (nisnan u) && negb (nisinf u) && (i =? goal)) eqn:E; eexists; (split; [reflexivity|]); cbn; split; auto.
    split; [|right; auto]. intros Hun. exfalso. apply Hun. apply andb_prop in E. destruct E as [_ E].
    apply Z.eqb_eq in E. subst. exact Hi.
Qed.

Definition all_settled (g : grid XR) : Prop :=
  forall i, 0 <= i < box_size dims -> fr i -> ~ In i init -> settled dims f (times g) i.

Lemma settled_all_solution g : GX g -> all_settled g ->
  solution dims (fun i => In i init) fr f (2 * M) (times g).
Proof. intros G A. apply settled_solution; auto. apply G. Qed.

Lemma order_all incs i : is_dir (length dims) incs -> 0 <= i < box_size dims -> In i (sweep_order incs dims).
Proof.
  intros Hd Hi. eapply Permutation_in; [symmetry; apply sweep_order_perm; auto|]. apply in_zseq.
  pose proof (box_size_pos _ Hp). lia.
Qed.

Lemma one_sweep_eqX solve incs (s : sw_state (N := XR)) : GX (sw_g s) -> is_dir (length dims) incs ->
  one_sweep solve incs s = foldM (visit solve) (sweep_order incs dims) s.
Proof. intros HG Hd. eapply (one_sweep_eq dims Hd2 Hlt GX gx_ok); eauto. Qed.

Lemma order_rangeX incs i : is_dir (length dims) incs -> In i (sweep_order incs dims) -> 0 <= i < box_size dims.
Proof. apply order_range, Hd2. Qed.

Lemma fsm_sweep goal incs s : GX (sw_g s) -> sw_keep s = false -> is_dir (length dims) incs ->
  exists s', one_sweep (fsm_solveForIdx goal) incs s = Ok s' /\ GX (sw_g s') /\
    (unset goal -> sw_stop s' = sw_stop s) /\ (sw_keep s' = false -> all_settled (sw_g s')).
Proof.
  intros G K Hd. rewrite one_sweep_eqX by assumption.
  destruct (foldM_seq (fun pre s' => GX (sw_g s') /\ (unset goal -> sw_stop s' = sw_stop s) /\
      (sw_keep s' = false -> sw_g s' = sw_g s /\ forall i, In i pre -> fr i -> ~ In i init -> settled dims f (times (sw_g s)) i))
    (visit (fsm_solveForIdx goal)) (sweep_order incs dims) s) as [s' [H' [G' [St P']]]].
  - split; [exact G|]. split; [auto|]. intros _. split; [reflexivity|]. intros i [].
  - intros pre x post s1 El [G1 [S1 P1]].
    destruct (fsm_visit goal s1 x G1) as [s2 [H2 [G2 [S2 C2]]]].
    { apply (order_rangeX incs); auto. rewrite El. apply in_or_app; right; left; reflexivity. }
    exists s2. split; [exact H2|]. split; [exact G2|]. split; [intros Hu; rewrite S2 by exact Hu; auto|].
    intros K2. destruct C2 as [C2|[C2 [E2 Hs2]]]; [congruence|]. rewrite C2 in K2. destruct (P1 K2) as [E1 Hs1].
    rewrite E2. split; [exact E1|]. intros i Hi Hfi Hni. apply in_app_or in Hi. destruct Hi as [Hi|[->|[]]]; auto.
    rewrite <- E1. auto.
  - exists s'. split; [exact H'|]. split; [exact G'|]. split; [exact St|]. intros K'. destruct (P' K') as [E' Hs'].
    rewrite E'. intros i Hi. apply Hs'. apply order_all; auto.
Qed.

Definition loop_post (goal ms : Z) (r : sw_state (N := XR) * Z * list Z) : Prop :=
  let '(s, n, _) := r in GX (sw_g s) /\ (unset goal -> n < ms -> all_settled (sw_g s)).

Lemma sweep_loop_X (P : grid XR -> Prop) solve goal ms :
  (forall g, P g -> GX g) ->
  (forall incs s, P (sw_g s) -> sw_keep s = false -> is_dir (length dims) incs ->
     exists s', one_sweep solve incs s = Ok s' /\ P (sw_g s') /\
       (unset goal -> sw_stop s' = sw_stop s) /\ (sw_keep s' = false -> all_settled (sw_g s'))) ->
  forall fuel sweeps incs s r, P (sw_g s) -> is_dir (length dims) incs -> (unset goal -> sw_stop s = false) ->
  (sw_keep s = false -> all_settled (sw_g s)) ->
  sweep_loop solve fuel ms sweeps incs s = Ok r -> loop_post goal ms r.
Proof.
  intros HP Hsw. induction fuel as [|fuel IH]; intros sweeps incs s r G Hd St K H; cbn in H;
    destruct (sw_keep s && negb (sw_stop s) && (sweeps <? ms)) eqn:Ec; try discriminate.
  2: destruct (next_dir _ _ Hd) as [Hd' _];
    destruct (Hsw (next_incs incs) (mkSw (sw_g s) false (sw_stop s)) G eq_refl Hd') as [s' [H' [G' [S' K']]]];
    rewrite H' in H; cbn [bind] in H; eapply IH; eauto; intros Hun; rewrite S' by exact Hun; apply St, Hun.
  all: injection H as <-; split; [auto|]; intros Hun Hlt'; apply K;
       rewrite (St Hun) in Ec; apply Z.ltb_lt in Hlt'; rewrite Hlt' in Ec; destruct (sw_keep s); [discriminate|reflexivity].
Qed.

Lemma fsm_init_X : exists g, foldM (fun g i => setArrivalTime g i (n0 : XR)) init g0 = Ok g /\ GI0 init g.
Proof.
  apply (foldM_seq (fun pre g => GI0 pre g) (fun g i => setArrivalTime g i (n0 : XR)) init g0 gi0_start).
  intros pre x post g1 El G1. apply gi0_src; auto. rewrite El. apply in_or_app; right; left; reflexivity.
Qed.

Theorem fsm_run_X fuel ms goal sweeps incs r : is_dir (length dims) incs ->
  fsm_run fuel ms goal init sweeps incs g0 = Ok r -> loop_post goal ms r.
Proof.
  intros Hd H. unfold fsm_run in H. destruct fsm_init_X as [g [Hg G]]. rewrite Hg in H. cbn [bind] in H.
  apply (sweep_loop_X GX (fsm_solveForIdx goal) goal) in H; [exact H|auto| |apply gi0_gx, G|exact Hd| |].
  - intros incs' s' G' K' Hd'. apply fsm_sweep; assumption.
  - reflexivity.
  - intros K. discriminate K.
Qed.

(** ** LSM *)
Definition st (g : grid XR) (i : Z) : fmstate := match getCell g i with Ok c => c_state c | _ => FROZEN end.

Lemma st_upd g i fn g' j : updCell g i fn = Ok g' ->
  st g' j = if i =? j then match getCell g i with Ok c => c_state (fn c) | _ => FROZEN end else st g j.
Proof.
  intros H. unfold st. rewrite (updCell_get _ _ _ _ j H). destruct (Z.eqb_spec i j) as [->|Hne]; [|reflexivity].
  destruct (getCell g j); reflexivity.
Qed.

Lemma st_set g i s g' j : setState g i s = Ok g' -> st g' j = if i =? j then s else st g j.
Proof.
  intros H. rewrite (st_upd _ _ _ _ j H). destruct (Z.eqb_spec i j) as [->|]; [|reflexivity].
  destruct (proj1 (updCell_ok _ _ _ _) H) as [c [Hc _]]. rewrite Hc. reflexivity.
Qed.

Lemma st_val g i (t : XR) g' j : setArrivalTime g i t = Ok g' -> st g' j = st g j.
Proof.
  intros H. rewrite (st_upd _ _ _ _ j H). destruct (Z.eqb_spec i j) as [->|]; [|reflexivity].
  unfold st. destruct (getCell g j); reflexivity.
Qed.

(** unlocked cells are settled *)
Record LX (g : grid XR) : Prop := {
  lx_g : GX g;
  lx_s : forall i, 0 <= i < box_size dims -> fr i -> ~ In i init -> st g i <> OPEN -> settled dims f (times g) i
}.

Lemma stx g i s : GX g -> 0 <= i < box_size dims -> exists g', setState g i s = Ok g'.
Proof. intros G Hi. destruct (getCell_in dims g i (gx_ok _ G) Hi) as [c Hc]. eapply updCell_in; eauto. Qed.

(** the loop that unlocks the neighbours that can improve *)
Lemma unlock_X g i r : GX g -> 0 <= i < box_size dims ->
  exists g', foldM (fun g j => v <- getArrivalTime g j ;;
       if isTimeBetterThan (XFin r : XR) v then setState g j OPEN else Ok g) (nbrs dims i) g = Ok g' /\
    GX g' /\ times g' = times g /\
    (forall j, st g' j <> OPEN -> st g j <> OPEN /\ (adjacent dims j i -> ~ better r (times g j))).
Proof.
  intros G Hi.
  destruct (foldM_seq (fun pre g' => GX g' /\ times g' = times g /\
      (forall j, st g' j <> OPEN -> st g j <> OPEN /\ (In j pre -> ~ better r (times g j))))
    (fun g j => v <- getArrivalTime g j ;; if isTimeBetterThan (XFin r : XR) v then setState g j OPEN else Ok g)
    (nbrs dims i) g) as [g' [H' [G' [E' P']]]].
  - split; [exact G|]. split; [reflexivity|]. intros j Hj. split; [exact Hj|]. intros [].
  - intros pre j post g1 El [G1 [E1 P1]].
    assert (Hj : In j (nbrs dims i)) by (rewrite El; apply in_or_app; right; left; reflexivity).
    assert (Hjr : 0 <= j < box_size dims) by (eapply nbrs_range; eauto).
    destruct (getCell_in dims g1 j (gx_ok _ G1) Hjr) as [c Hc]. unfold getArrivalTime. rewrite Hc. cbn [bind].
    destruct (isTimeBetterThan (XFin r : XR) (c_val c)) eqn:Eb.
    + destruct (stx g1 j OPEN G1 Hjr) as [g2 Hg2]. exists g2. split; [exact Hg2|].
      destruct (gx_state _ _ _ _ G1 Hg2) as [G2 E2]. split; [exact G2|]. split; [congruence|].
      intros k Hk. rewrite (st_set _ _ _ _ k Hg2) in Hk. destruct (Z.eqb_spec j k) as [->|Hne]; [congruence|].
      destruct (P1 k Hk) as [A B]. split; [exact A|]. intros Hin. apply B. apply in_app_or in Hin.
      destruct Hin as [Hin|[Hin|[]]]; [exact Hin|congruence].
    + exists g1. split; [reflexivity|]. split; [exact G1|]. split; [exact E1|].
      intros k Hk. destruct (P1 k Hk) as [A B]. split; [exact A|]. intros Hin. apply in_app_or in Hin.
      destruct Hin as [Hin|[<-|[]]]; [apply B, Hin|]. rewrite <- E1. intros Hb.
      apply (better_val g1 j c r (gx_t _ G1) Hc) in Hb. congruence.
  - exists g'. split; [exact H'|]. split; [exact G'|]. split; [exact E'|].
    intros j Hj. destruct (P' j Hj) as [A B]. split; [exact A|]. intros Ha. apply B. apply nbrs_spec; auto.
    apply adjacent_sym, Ha.
Qed.

Lemma lsm_visit goal s i : LX (sw_g s) -> 0 <= i < box_size dims ->
  exists s', visit (lsm_solveForIdx goal) s i = Ok s' /\ LX (sw_g s') /\
   (unset goal -> sw_stop s' = sw_stop s) /\
   ((sw_keep s' = true) \/
    (sw_keep s' = sw_keep s /\ (fr i -> st (sw_g s') i <> OPEN) /\
     (forall j, st (sw_g s) j <> OPEN -> st (sw_g s') j <> OPEN))).
Proof.
  intros X Hi. pose proof X as [G Sx]. unfold visit.
  destruct (getCell_in dims (sw_g s) i (gx_ok _ G) Hi) as [c Hc]. rewrite Hc. cbn [bind].
  destruct (isOccupied c) eqn:Eo.
  { exists s. split; [reflexivity|]. split; [exact X|]. split; [auto|]. right. split; [reflexivity|].
    split; [|auto]. intros H. apply (gx_free' _ _ _ G Hc) in H. congruence. }
  unfold lsm_solveForIdx. rewrite Hc. cbn [bind].
  destruct (fmstate_eqb (c_state c) OPEN) eqn:Est.
  2:{ exists s. split; [reflexivity|]. split; [exact X|]. split; [auto|]. right. split; [reflexivity|]. split; [|auto].
      intros _. unfold st. rewrite Hc. apply eqb_state_false in Est. exact Est. }
  destruct (relax_X _ _ _ G Hi Hc Eo) as [u [Hu Hcase]]. rewrite Hu. cbn [bind].
  destruct (isTimeBetterThan u (c_val c)) eqn:Eb.
  - destruct Hcase as [r [-> [Hbt [Hni [He [g1 [Hg1 [G1 [E1 Hsi]]]]]]]]]. rewrite Hg1. cbn [bind].
    destruct (gx_ok _ G1) as [Hsh _]. rewrite Hsh, getNeighbors_eq by assumption. cbn [bind].
    destruct (unlock_X g1 i r G1 Hi) as [g2 [H2 [G2 [E2 P2]]]]. rewrite H2. cbn [bind sw_g sw_keep sw_stop].
    destruct (stx g2 i FROZEN G2 Hi) as [g3 Hg3]. rewrite Hg3. cbn [bind].
    destruct (gx_state _ _ _ _ G2 Hg3) as [G3 E3].
    eexists. split; [reflexivity|]. cbn. split; [|split; [auto|left; reflexivity]].
    constructor; [exact G3|]. intros j Hj Hfj Hnj Hst. rewrite E3, E2, E1.
    rewrite (st_set _ _ _ _ j Hg3) in Hst. destruct (Z.eqb_spec i j) as [<-|Hne]; [exact Hsi|].
    destruct (P2 j Hst) as [A B]. rewrite (st_val _ _ _ _ j Hg1) in A.
    apply settled_keep; auto. intros Ha Hb. apply (B Ha). rewrite E1, upd_other by auto. exact Hb.
  - destruct (stx (sw_g s) i FROZEN G Hi) as [g3 Hg3]. destruct (gx_state _ _ _ _ G Hg3) as [G3 E3].
    assert (X3 : LX g3).
    { constructor; [exact G3|]. intros j Hj Hfj Hnj Hst. rewrite E3. rewrite (st_set _ _ _ _ j Hg3) in Hst.
      destruct (Z.eqb_spec i j) as [<-|Hne]; auto. }
    assert (Hopen : (fr i -> st g3 i <> OPEN) /\ forall j, st (sw_g s) j <> OPEN -> st g3 j <> OPEN).
    { split; [intros _|intros j Hj]; rewrite (st_set _ _ _ _ _ Hg3).
      - rewrite Z.eqb_refl. discriminate.
      - destruct (i =? j); [discriminate|exact Hj]. }
    destruct (negb (nisnan u) && negb (nisinf u) && (i =? goal)) eqn:E; cbn [bind sw_g sw_keep sw_stop]; rewrite Hg3; cbn [bind];
      eexists; (split; [reflexivity|]); cbn; (split; [exact X3|]); (split; [|right; auto]); auto.
    intros Hun. exfalso. apply Hun. apply andb_prop in E. destruct E as [_ E]. apply Z.eqb_eq in E. subst. exact Hi.
Qed.

Lemma lsm_sweep goal incs s : LX (sw_g s) -> sw_keep s = false -> is_dir (length dims) incs ->
  exists s', one_sweep (lsm_solveForIdx goal) incs s = Ok s' /\ LX (sw_g s') /\
    (unset goal -> sw_stop s' = sw_stop s) /\ (sw_keep s' = false -> all_settled (sw_g s')).
Proof.
  intros X K Hd. rewrite one_sweep_eqX by (auto; apply X).
  destruct (foldM_seq (fun pre s' => LX (sw_g s') /\ (unset goal -> sw_stop s' = sw_stop s) /\
      (sw_keep s' = false -> forall i, In i pre -> fr i -> st (sw_g s') i <> OPEN))
    (visit (lsm_solveForIdx goal)) (sweep_order incs dims) s) as [s' [H' [X' [St P']]]].
  - split; [exact X|]. split; [auto|]. intros _ i [].
  - intros pre x post s1 El [X1 [S1 P1]].
    destruct (lsm_visit goal s1 x X1) as [s2 [H2 [X2 [S2 C2]]]].
    { apply (order_rangeX incs); auto. rewrite El. apply in_or_app; right; left; reflexivity. }
    exists s2. split; [exact H2|]. split; [exact X2|]. split; [intros Hu; rewrite S2 by exact Hu; auto|].
    intros K2. destruct C2 as [C2|[C2 [E2 Hs2]]]; [congruence|]. rewrite C2 in K2.
    intros i Hi Hfi. apply in_app_or in Hi. destruct Hi as [Hi|[<-|[]]]; [|auto]. apply Hs2. apply (P1 K2); auto.
  - exists s'. split; [exact H'|]. split; [exact X'|]. split; [exact St|]. intros K'.
    intros i Hi Hfi Hni. apply (lx_s _ X'); auto. apply (P' K'); [apply order_all; auto|exact Hfi].
Qed.

Lemma freeze_X g : GI0 [] g -> exists g', freeze_all g = Ok g' /\ GI0 [] g' /\ forall i, st g' i = FROZEN.
Proof.
  intros G. unfold freeze_all, gsize. pose proof (frame_grid_ok _ _ _ _ (gi_f _ _ G) Hg0) as [Hsh _]. rewrite Hsh.
  pose proof (box_size_pos _ Hp) as Hb. rewrite mk_shape_eq by (auto; lia). cbn [s_n].
  destruct (foldM_seq (fun pre g' => GI0 [] g' /\ forall i, In i pre -> st g' i = FROZEN)
    (fun g i => setState g i FROZEN) (zseq (Z.to_nat (box_size dims))) g) as [g' [H' [G' P']]].
  - split; [exact G|]. intros i [].
  - intros pre x post g1 El [G1 P1].
    assert (Hx : In x (zseq (Z.to_nat (box_size dims)))) by (rewrite El; apply in_or_app; right; left; reflexivity).
    apply in_zseq in Hx. pose proof (frame_grid_ok _ _ _ _ (gi_f _ _ G1) Hg0) as Hg1.
    destruct (getCell_in dims g1 x Hg1 ltac:(lia)) as [c Hc].
    destruct (updCell_in g1 x c (fun c => with_state c FROZEN) Hc) as [g2 Hg2].
    exists g2. split; [exact Hg2|]. split; [eapply gi0_state; eauto|]. intros i Hi.
    rewrite (st_set _ _ _ _ i Hg2). destruct (Z.eqb_spec x i); [reflexivity|]. apply P1.
    apply in_app_or in Hi. destruct Hi as [Hi|[Hi|[]]]; [exact Hi|congruence].
  - exists g'. split; [exact H'|]. split; [exact G'|]. intros i.
    pose proof (frame_grid_ok _ _ _ _ (gi_f _ _ G') Hg0) as [_ Hl].
    destruct (getCell g' i) as [c|e] eqn:E; [|unfold st; rewrite E; reflexivity].
    apply P'. apply in_zseq. apply getCell_range in E. lia.
Qed.

Lemma lsm_init_X : exists g g', freeze_all g0 = Ok g /\ foldM lsm_init1 init g = Ok g' /\ LX g'.
Proof.
  destruct (freeze_X g0 gi0_start) as [g [Hg [G Fz]]].
  destruct (foldM_seq (fun pre g' => GI0 pre g' /\ forall i j, In i pre -> adjacent dims i j -> st g' j = OPEN)
    lsm_init1 init g) as [g' [H' [G' P']]].
  - split; [exact G|]. intros i j [].
  - intros pre x post g1 El [G1 P1].
    assert (Hx : In x init) by (rewrite El; apply in_or_app; right; left; reflexivity).
    unfold lsm_init1. destruct (gi0_src pre g1 x G1 Hx) as [g2 [Hg2 G2]]. rewrite Hg2. cbn [bind].
    pose proof (frame_grid_ok _ _ _ _ (gi_f _ _ G2) Hg0) as [Hsh _]. rewrite Hsh, getNeighbors_eq by auto. cbn [bind].
    destruct (foldM_seq (fun pre2 g' => GI0 (pre ++ [x]) g' /\ (forall j, st g2 j = OPEN -> st g' j = OPEN) /\
        forall j, In j pre2 -> st g' j = OPEN)
      (fun g j => setState g j OPEN) (nbrs dims x) g2) as [g3 [H3 [G3 [A3 B3]]]].
    + split; [exact G2|]. split; [auto|]. intros j [].
    + intros pre2 y post2 g4 El2 [G4 [A4 B4]].
      assert (Hy : In y (nbrs dims x)) by (rewrite El2; apply in_or_app; right; left; reflexivity).
      assert (Hyr : 0 <= y < box_size dims) by (eapply nbrs_range; [| |exact Hy]; auto).
      pose proof (frame_grid_ok _ _ _ _ (gi_f _ _ G4) Hg0) as Hg4.
      destruct (getCell_in dims g4 y Hg4 Hyr) as [c Hc].
      destruct (updCell_in g4 y c (fun c => with_state c OPEN) Hc) as [g5 Hg5]. exists g5. split; [exact Hg5|].
      split; [eapply gi0_state; eauto|]. split.
      * intros j Hj. rewrite (st_set _ _ _ _ j Hg5). destruct (y =? j); auto.
      * intros j Hj. rewrite (st_set _ _ _ _ j Hg5). destruct (Z.eqb_spec y j); [reflexivity|].
        apply B4. apply in_app_or in Hj. destruct Hj as [Hj|[Hj|[]]]; [exact Hj|congruence].
    + exists g3. split; [exact H3|]. split; [exact G3|]. intros i j Hij Ha. apply in_app_or in Hij.
      destruct Hij as [Hij|[<-|[]]].
      * apply A3. rewrite (st_val _ _ _ _ j Hg2). eapply P1; eauto.
      * apply B3. apply nbrs_spec; auto.
  - exists g, g'. split; [exact Hg|]. split; [exact H'|]. constructor; [apply gi0_gx, G'|].
    intros i Hi Hfi Hni Hst. apply (settled_start dims init); auto; [apply G'|].
    intros j Hj Hin. apply Hst. apply (P' j i); auto. apply adjacent_sym, Hj.
Qed.

Theorem lsm_run_X fuel ms goal sweeps incs r : is_dir (length dims) incs ->
  lsm_run fuel ms goal init sweeps incs g0 = Ok r -> loop_post goal ms r.
Proof.
  intros Hd H. unfold lsm_run in H. destruct lsm_init_X as [g [g' [Hg [Hg' X]]]].
  rewrite Hg in H. cbn [bind] in H. rewrite Hg' in H. cbn [bind] in H.
  apply (sweep_loop_X LX (lsm_solveForIdx goal) goal) in H; [exact H|apply lx_g| |exact X|exact Hd| |].
  - intros incs' s' G' K' Hd'. apply lsm_sweep; assumption.
  - reflexivity.
  - intros K. discriminate K.
Qed.

(** ** DDQM *)
Record DX (g : grid XR) (q : list Z) : Prop := {
  dx_g : GX g;
  dx_n : forall i, st g i <> NARROW;
  dx_q : forall i, In i q -> 0 <= i < box_size dims;
  dx_o : forall i, 0 <= i < box_size dims -> fr i -> st g i = OPEN -> In i q;
  dx_s : forall i, 0 <= i < box_size dims -> fr i -> ~ In i init -> st g i <> OPEN -> settled dims f (times g) i
}.

Lemma DX_same g q q' : (forall i, In i q <-> In i q') -> DX g q -> DX g q'.
Proof. intros H [A B C D E]. constructor; auto; intros; [apply C, H|apply H, D]; auto. Qed.

(** the loop over the neighbours of an updated cell *)
Lemma ddqm_unlock_X (s : dq_state (N := XR)) i r : GX (dq_g s) -> (forall j, st (dq_g s) j <> NARROW) ->
  (forall j, In j (dq_lo s ++ dq_hi s) -> 0 <= j < box_size dims) -> 0 <= i < box_size dims ->
  exists s', foldM (ddqm_neighbor (XFin r : XR)) (nbrs dims i) s = Ok s' /\
    GX (dq_g s') /\ times (dq_g s') = times (dq_g s) /\ dq_stop s' = dq_stop s /\
    (forall j, st (dq_g s') j <> NARROW) /\
    (forall j, In j (dq_lo s' ++ dq_hi s') -> 0 <= j < box_size dims) /\
    (forall j, In j (dq_lo s ++ dq_hi s) -> In j (dq_lo s' ++ dq_hi s')) /\
    (forall j, st (dq_g s') j = OPEN -> st (dq_g s) j = OPEN \/ In j (dq_lo s' ++ dq_hi s')) /\
    (forall j, st (dq_g s') j <> OPEN -> st (dq_g s) j <> OPEN /\ (adjacent dims j i -> ~ better r (times (dq_g s) j))).
Proof.
  intros G Nn Q Hi.
  destruct (foldM_seq (fun pre (s' : dq_state (N := XR)) =>
    GX (dq_g s') /\ times (dq_g s') = times (dq_g s) /\ dq_stop s' = dq_stop s /\
    (forall j, st (dq_g s') j <> NARROW) /\
    (forall j, In j (dq_lo s' ++ dq_hi s') -> 0 <= j < box_size dims) /\
    (forall j, In j (dq_lo s ++ dq_hi s) -> In j (dq_lo s' ++ dq_hi s')) /\
    (forall j, st (dq_g s') j = OPEN -> st (dq_g s) j = OPEN \/ In j (dq_lo s' ++ dq_hi s')) /\
    (forall j, st (dq_g s') j <> OPEN -> st (dq_g s) j <> OPEN /\ (In j pre -> ~ better r (times (dq_g s) j))))
    (ddqm_neighbor (XFin r : XR)) (nbrs dims i) s) as [s' [H' [P1 [P2 [P3 [P4 [P5 [P6 [P7 P8]]]]]]]]].
  - do 7 (split; [auto|]). intros j Hj. split; [exact Hj|]. intros [].
  - intros pre j post s1 El [P1 [P2 [P3 [P4 [P5 [P6 [P7 P8]]]]]]].
    assert (Hj : In j (nbrs dims i)) by (rewrite El; apply in_or_app; right; left; reflexivity).
    assert (Hjr : 0 <= j < box_size dims) by (eapply nbrs_range; eauto).
    destruct (getCell_in dims (dq_g s1) j (gx_ok _ P1) Hjr) as [c Hc].
    unfold ddqm_neighbor. rewrite Hc. cbn [bind].
    destruct (fmstate_eqb (c_state c) FROZEN && isTimeBetterThan (XFin r : XR) (c_val c)) eqn:Eb.
    + destruct (stx (dq_g s1) j OPEN P1 Hjr) as [g2 Hg2]. rewrite Hg2. cbn [bind].
      destruct (gx_state _ _ _ _ P1 Hg2) as [G2 E2].
      assert (Hcommon : forall lo hi, (forall k, In k (lo ++ hi) <-> In k (dq_lo s1 ++ dq_hi s1) \/ k = j) ->
        GX g2 /\ times g2 = times (dq_g s) /\ (forall k, st g2 k <> NARROW) /\
        (forall k, In k (lo ++ hi) -> 0 <= k < box_size dims) /\
        (forall k, In k (dq_lo s ++ dq_hi s) -> In k (lo ++ hi)) /\
        (forall k, st g2 k = OPEN -> st (dq_g s) k = OPEN \/ In k (lo ++ hi)) /\
        (forall k, st g2 k <> OPEN -> st (dq_g s) k <> OPEN /\ (In k (pre ++ [j]) -> ~ better r (times (dq_g s) k)))).
      { intros lo hi Hlh. split; [exact G2|]. split; [congruence|]. split.
        { intros k. rewrite (st_set _ _ _ _ k Hg2). destruct (j =? k); [discriminate|apply P4]. }
        split; [intros k Hk; apply Hlh in Hk; destruct Hk as [Hk| ->]; auto|].
        split; [intros k Hk; apply Hlh; left; auto|]. split.
        - intros k. rewrite (st_set _ _ _ _ k Hg2). destruct (Z.eqb_spec j k) as [<-|Hne]; intros Hk.
          + right. apply Hlh. auto.
          + destruct (P7 k Hk) as [A|A]; [auto|]. right. apply Hlh. auto.
        - intros k. rewrite (st_set _ _ _ _ k Hg2). destruct (Z.eqb_spec j k) as [<-|Hne]; intros Hk; [congruence|].
          destruct (P8 k Hk) as [A B]. split; [exact A|]. intros Hin. apply B. apply in_app_or in Hin.
          destruct Hin as [Hin|[Hin|[]]]; [exact Hin|congruence]. }
      destruct (isTimeBetterThan (XFin r : XR) (dq_th s1)); eexists; (split; [reflexivity|]); cbn.
      * destruct (Hcommon (dq_lo s1 ++ [j]) (dq_hi s1)) as [A1 [A2 [A3 [A4 [A5 [A6 A7]]]]]]; [|repeat (split; [assumption|]); assumption].
        intros k. rewrite !in_app_iff. cbn. intuition.
      * destruct (Hcommon (dq_lo s1) (dq_hi s1 ++ [j])) as [A1 [A2 [A3 [A4 [A5 [A6 A7]]]]]]; [|repeat (split; [assumption|]); assumption].
        intros k. rewrite !in_app_iff. cbn. intuition.
    + exists s1. split; [reflexivity|]. repeat (split; [assumption|]).
      intros k Hk. destruct (P8 k Hk) as [A B]. split; [exact A|]. intros Hin. apply in_app_or in Hin.
      destruct Hin as [Hin|[<-|[]]]; [apply B, Hin|]. rewrite <- P2. intros Hb.
      apply (better_val (dq_g s1) j c r (gx_t _ P1) Hc) in Hb. rewrite Hb in Eb. rewrite andb_true_r in Eb.
      apply eqb_state_false in Eb. unfold st in Hk. rewrite Hc in Hk. specialize (P4 j). unfold st in P4. rewrite Hc in P4.
      destruct (c_state c); congruence.
  - exists s'. split; [exact H'|]. repeat (split; [assumption|]). intros j Hj. destruct (P8 j Hj) as [A B].
    split; [exact A|]. intros Ha. apply B. apply nbrs_spec; auto. apply adjacent_sym, Ha.
Qed.

Lemma ddqm_pop_X goal (s : dq_state (N := XR)) i :
  DX (dq_g s) (i :: dq_lo s ++ dq_hi s) ->
  exists s', ddqm_pop1 goal s i = Ok s' /\ DX (dq_g s') (dq_lo s' ++ dq_hi s') /\ (unset goal -> dq_stop s' = dq_stop s).
Proof.
  intros [G Nn Q O S].
  assert (Hi : 0 <= i < box_size dims) by (apply Q; left; reflexivity).
  assert (Q' : forall j, In j (dq_lo s ++ dq_hi s) -> 0 <= j < box_size dims) by (intros; apply Q; right; auto).
  unfold ddqm_pop1. destruct (getCell_in dims (dq_g s) i (gx_ok _ G) Hi) as [c Hc]. rewrite Hc. cbn [bind].
  assert (Hgoal : unset goal -> (i =? goal) = false).
  { intros Hun. apply Z.eqb_neq. intros ->. exact (Hun Hi). }
  destruct (isOccupied c) eqn:Eo.
  { exists s. split; [reflexivity|]. split; [|auto]. constructor; auto.
    intros j Hj Hfj Hst. destruct (O j Hj Hfj Hst) as [<-|H]; [|exact H].
    apply (gx_free' _ _ _ G Hc) in Hfj. congruence. }
  destruct (relax_X _ _ _ G Hi Hc Eo) as [u [Hu Hcase]]. rewrite Hu. cbn [bind].
  destruct (isTimeBetterThan u (c_val c)) eqn:Eb.
  - destruct Hcase as [r [-> [Hbt [Hni [He [g1 [Hg1 [G1 [E1 Hsi]]]]]]]]]. rewrite Hg1. cbn [bind].
    destruct (gx_ok _ G1) as [Hsh _]. rewrite Hsh, getNeighbors_eq by assumption. cbn [bind].
    set (s1 := mkDq g1 (dq_lo s) (dq_hi s) (dq_th s) (dq_step s) (dq_c0 s) (dq_c1 s) (dq_stop s)).
    destruct (ddqm_unlock_X s1 i r) as [s2 [H2 [P1 [P2 [P3 [P4 [P5 [P6 [P7 P8]]]]]]]]]; auto.
    { intros j. cbn. rewrite (st_val _ _ _ _ j Hg1). apply Nn. }
    rewrite H2. cbn [bind]. destruct (stx (dq_g s2) i FROZEN P1 Hi) as [g3 Hg3]. rewrite Hg3. cbn [bind].
    destruct (gx_state _ _ _ _ P1 Hg3) as [G3 E3].
    eexists. split; [reflexivity|]. cbn. split.
    + constructor; auto.
      * intros j. rewrite (st_set _ _ _ _ j Hg3). destruct (i =? j); [discriminate|apply P4].
      * intros j Hj Hfj Hst. rewrite (st_set _ _ _ _ j Hg3) in Hst. destruct (Z.eqb_spec i j) as [<-|Hne]; [discriminate|].
        destruct (P7 j Hst) as [A|A]; [|exact A]. cbn in A. rewrite (st_val _ _ _ _ j Hg1) in A.
        destruct (O j Hj Hfj A) as [B|B]; [congruence|]. apply P6. exact B.
      * intros j Hj Hfj Hnj Hst. rewrite (st_set _ _ _ _ j Hg3) in Hst. rewrite E3, P2. cbn. rewrite E1.
        destruct (Z.eqb_spec i j) as [<-|Hne]; [exact Hsi|].
        destruct (P8 j Hst) as [A B]. cbn in A, B. rewrite (st_val _ _ _ _ j Hg1) in A.
        apply settled_keep; auto. intros Ha Hb. apply (B Ha). rewrite E1, upd_other by auto. exact Hb.
    + intros Hun. rewrite (Hgoal Hun), orb_false_r. exact P3.
  - destruct (stx (dq_g s) i FROZEN G Hi) as [g3 Hg3]. destruct (gx_state _ _ _ _ G Hg3) as [G3 E3].
    cbn [bind]. rewrite Hg3. cbn [bind]. eexists. split; [reflexivity|]. cbn. split.
    + constructor; auto.
      * intros j. rewrite (st_set _ _ _ _ j Hg3). destruct (i =? j); [discriminate|apply Nn].
      * intros j Hj Hfj Hst. rewrite (st_set _ _ _ _ j Hg3) in Hst. destruct (Z.eqb_spec i j) as [<-|Hne]; [discriminate|].
        destruct (O j Hj Hfj Hst) as [B|B]; [congruence|exact B].
      * intros j Hj Hfj Hnj Hst. rewrite (st_set _ _ _ _ j Hg3) in Hst. rewrite E3.
        destruct (Z.eqb_spec i j) as [<-|Hne]; auto.
    + intros Hun. rewrite (Hgoal Hun), orb_false_r. reflexivity.
Qed.

Lemma DX_done g : DX g [] -> all_settled g.
Proof.
  intros [G Nn Q O S] i Hi Hfi Hni. apply S; auto. intros Hst. exact (O i Hi Hfi Hst).
Qed.

Definition ddqm_post goal (s : dq_state (N := XR)) : Prop := GX (dq_g s) /\ (unset goal -> all_settled (dq_g s)).

Lemma ddqm_loop_X goal fuel : forall s r, DX (dq_g s) (dq_lo s ++ dq_hi s) -> (unset goal -> dq_stop s = false) ->
  ddqm_loop fuel goal s = Ok r -> ddqm_post goal r.
Proof.
  induction fuel as [|k IH]; intros s r D St H; cbn [ddqm_loop] in H; [discriminate|].
  assert (Hswap : forall s1 : dq_state (N := XR), s1 = increaseThreshold (mkDq (dq_g s) (dq_hi s) (dq_lo s) (dq_th s) (dq_step s) (dq_c0 s) (dq_c1 s) (dq_stop s)) ->
     dq_g s1 = dq_g s /\ dq_lo s1 = dq_hi s /\ dq_hi s1 = dq_lo s /\ dq_stop s1 = dq_stop s) by (intros s1 ->; cbn; auto).
  assert (Hsw : match dq_hi s, dq_lo s, dq_stop s with
          | [], [], _ => Ok (increaseThreshold (mkDq (dq_g s) (dq_hi s) (dq_lo s) (dq_th s) (dq_step s) (dq_c0 s) (dq_c1 s) (dq_stop s)))
          | _, _, true => Ok (increaseThreshold (mkDq (dq_g s) (dq_hi s) (dq_lo s) (dq_th s) (dq_step s) (dq_c0 s) (dq_c1 s) (dq_stop s)))
          | _, _, false => ddqm_loop k goal (increaseThreshold (mkDq (dq_g s) (dq_hi s) (dq_lo s) (dq_th s) (dq_step s) (dq_c0 s) (dq_c1 s) (dq_stop s)))
          end = Ok r -> ddqm_post goal r).
  { set (s1 := increaseThreshold _). destruct (Hswap s1 eq_refl) as [A1 [A2 [A3 A4]]]. intros K.
    assert (D1 : DX (dq_g s1) (dq_lo s1 ++ dq_hi s1)).
    { rewrite A1, A2, A3. eapply DX_same; [|exact D]. intros i. rewrite !in_app_iff. tauto. }
    assert (Hrun : ddqm_loop k goal s1 = Ok r -> ddqm_post goal r).
    { apply IH; [exact D1|]. intros Hun. rewrite A4. auto. }
    assert (Hstop : dq_stop s = true -> ddqm_post goal s1).
    { intros E. split; [rewrite A1; apply D|]. intros Hun. rewrite (St Hun) in E. discriminate. }
    destruct (dq_hi s) as [|h1 hq] eqn:Eh.
    - destruct (dq_lo s) as [|l1 lq] eqn:El.
      + injection K as <-. split; [rewrite A1; apply D|]. intros _. rewrite A1. apply DX_done. exact D.
      + destruct (dq_stop s); [injection K as <-; apply Hstop; reflexivity|apply Hrun, K].
    - destruct (dq_stop s); [injection K as <-; apply Hstop; reflexivity|apply Hrun, K]. }
  destruct (dq_lo s) as [|idx q] eqn:El.
  - apply Hsw. destruct (dq_hi s), (dq_stop s); exact H.
  - destruct (dq_stop s) eqn:Es.
    + apply Hsw. destruct (dq_hi s); exact H.
    + apply bind_ok in H. destruct H as [s' [H1 H2]].
      destruct (ddqm_pop_X goal (mkDq (dq_g s) q (dq_hi s) (dq_th s) (dq_step s) (dq_c0 s) (dq_c1 s) false) idx D) as [s2 [H3 [D2 S2]]].
      assert (s2 = s') by congruence. subst s2. eapply IH; eauto.
Qed.

Lemma ddqm_init_X : exists g g' q, freeze_all g0 = Ok g /\ foldM ddqm_init1 init (g, []) = Ok (g', q) /\ DX g' q.
Proof.
  destruct (freeze_X g0 gi0_start) as [g [Hg [G Fz]]].
  destruct (foldM_seq (fun pre (s : grid XR * list Z) => GI0 pre (fst s) /\ (forall i, st (fst s) i <> NARROW) /\
       (forall i, In i (snd s) -> 0 <= i < box_size dims) /\ (forall i, st (fst s) i = OPEN -> In i (snd s)) /\
       (forall i j, In i pre -> adjacent dims i j -> fr j -> st (fst s) j = OPEN))
    ddqm_init1 init (g, [])) as [[g' q] [H' [P1 [P2 [P3 [P4 P5]]]]]].
  - cbn. split; [exact G|]. split; [intros i; rewrite Fz; discriminate|]. split; [intros i []|].
    split; [intros i; rewrite Fz; discriminate|]. intros i j [].
  - intros pre x post [g1 q1] El [P1 [P2 [P3 [P4 P5]]]]. cbn [fst snd] in *.
    assert (Hx : In x init) by (rewrite El; apply in_or_app; right; left; reflexivity).
    unfold ddqm_init1. destruct (gi0_src pre g1 x P1 Hx) as [g2 [Hg2 G2]]. rewrite Hg2. cbn [bind].
    pose proof (frame_grid_ok _ _ _ _ (gi_f _ _ G2) Hg0) as [Hsh _]. rewrite Hsh, getNeighbors_eq by auto. cbn [bind].
    destruct (foldM_seq (fun pre2 (s : grid XR * list Z) => GI0 (pre ++ [x]) (fst s) /\ (forall i, st (fst s) i <> NARROW) /\
       (forall i, In i (snd s) -> 0 <= i < box_size dims) /\ (forall i, st (fst s) i = OPEN -> In i (snd s)) /\
       (forall j, st g2 j = OPEN -> st (fst s) j = OPEN) /\
       (forall j, In j pre2 -> fr j -> st (fst s) j = OPEN))
      (fun '(g, q) j => c <- getCell g j ;; if isOccupied c then Ok (g, q) else g' <- setState g j OPEN ;; Ok (g', q ++ [j]))
      (nbrs dims x) (g2, q1)) as [[g3 q3] [H3 [A1 [A2 [A3 [A4 [A5 A6]]]]]]].
    + cbn. split; [exact G2|]. split; [intros i; rewrite (st_val _ _ _ _ i Hg2); apply P2|]. split; [exact P3|].
      split; [intros i; rewrite (st_val _ _ _ _ i Hg2); apply P4|]. split; [auto|]. intros j [].
    + intros pre2 y post2 [g4 q4] El2 [A1 [A2 [A3 [A4 [A5 A6]]]]]. cbn [fst snd] in *.
      assert (Hy : In y (nbrs dims x)) by (rewrite El2; apply in_or_app; right; left; reflexivity).
      assert (Hyr : 0 <= y < box_size dims) by (eapply nbrs_range; [| |exact Hy]; auto).
      pose proof (frame_grid_ok _ _ _ _ (gi_f _ _ A1) Hg0) as Hg4.
      destruct (getCell_in dims g4 y Hg4 Hyr) as [c Hc]. rewrite Hc. cbn [bind].
      destruct (isOccupied c) eqn:Eo.
      * exists (g4, q4). split; [reflexivity|]. cbn. repeat (split; [assumption|]). intros j Hj Hfj.
        apply in_app_or in Hj. destruct Hj as [Hj|[<-|[]]]; [auto|].
        apply (frame_free _ _ _ _ (gi_f _ _ A1)) in Hfj. destruct Hfj as [c' [Hc' Ho']]. congruence.
      * destruct (updCell_in g4 y c (fun c => with_state c OPEN) Hc) as [g5 Hg5].
        change (updCell g4 y (fun c => with_state c OPEN)) with (setState g4 y OPEN) in Hg5. rewrite Hg5. cbn [bind].
        exists (g5, q4 ++ [y]). split; [reflexivity|]. cbn. split; [eapply gi0_state; eauto|].
        split; [intros i; rewrite (st_set _ _ _ _ i Hg5); destruct (y =? i); [discriminate|apply A2]|].
        split; [intros i Hi; apply in_app_or in Hi; destruct Hi as [Hi|[<-|[]]]; auto|].
        split; [intros i; rewrite (st_set _ _ _ _ i Hg5); destruct (Z.eqb_spec y i) as [<-|Hne]; intros Hi; apply in_or_app; [right; left; reflexivity|left; auto]|].
        split; [intros j Hj; rewrite (st_set _ _ _ _ j Hg5); destruct (y =? j); auto|].
        intros j Hj Hfj. rewrite (st_set _ _ _ _ j Hg5). destruct (Z.eqb_spec y j); [reflexivity|].
        apply in_app_or in Hj. destruct Hj as [Hj|[Hj|[]]]; [auto|congruence].
    + exists (g3, q3). split; [exact H3|]. cbn in *. repeat (split; [assumption|]). intros i j Hij Ha Hfj.
      apply in_app_or in Hij. destruct Hij as [Hij|[<-|[]]].
      * apply A5. rewrite (st_val _ _ _ _ j Hg2). eapply P5; eauto.
      * apply A6; [apply nbrs_spec; auto|exact Hfj].
  - cbn in *. exists g, g', q. split; [exact Hg|]. split; [exact H'|]. constructor; auto; [apply gi0_gx, P1|].
    intros i Hi Hfi Hni Hst. apply (settled_start dims init); auto; [apply P1|].
    intros j Hj Hin. apply Hst. apply (P5 j i); auto. apply adjacent_sym, Hj.
Qed.

Theorem ddqm_run_X fuel goal th step s : ddqm_run fuel goal init th step g0 = Ok s -> ddqm_post goal s.
Proof.
  intros H. unfold ddqm_run in H. destruct ddqm_init_X as [g [g' [q [Hg [Hg' D]]]]].
  rewrite Hg in H. cbn [bind] in H. rewrite Hg' in H. cbn [bind] in H.
  destruct q as [|a q].
  - injection H as <-. split; [apply D|]. intros _. apply DX_done, D.
  - eapply ddqm_loop_X; [| |exact H]; cbn; [rewrite app_nil_r; exact D|auto].
Qed.

End SX.

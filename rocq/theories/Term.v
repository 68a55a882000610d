(** Term.v - termination and memory safety of FSM, LSM and DDQM, for every
    arithmetic in which accepted updates cannot go on forever (C32, C35). *)
From Coq Require Import Reals Lra Wellfounded Relation_Operators Permutation.
From Verif Require Import Base BaseFacts Num NumXR NumF64 NumLaws NumWf Grid GridFacts GridUpd GridMore Spec Obs Eikonal
  SweepModel QueueModel SweepOrder FMMModel HeapRef HeapLaws Frame FMMStruct EikR Solution XGrid FMMAbs Relax Examples.
Open Scope Z_scope.

Lemma map_lset {A B} (f : A -> B) l n x : map f (lset l n x) = lset (map f l) n (f x).
Proof. revert n; induction l as [|y l IH]; intros [|n]; cbn; try reflexivity. f_equal. apply IH. Qed.

Definition vals {N : Num} (g : grid N) : list N := map c_val (g_cells g).

Section Term.
Context {N : Num}.
Variable L : NumLaws N.
Variable dims : list Z.
Hypothesis Hd2 : dims2 dims.
Hypothesis Hlt : 2 * box_size dims <= 4294967296.
(** invariant of the grid and property of every accepted time *)
Variable GI : grid N -> Prop.
Variable Good : N -> Prop.
Hypothesis GI_ok : forall g, GI g -> grid_ok dims g.
Hypothesis GI_state : forall g i s g', GI g -> setState g i s = Ok g' -> GI g'.
Hypothesis GI_src : forall g i g', GI g -> setArrivalTime g i n0 = Ok g' -> GI g'.
Hypothesis GI_upd : forall g i c u g', GI g -> 0 <= i < box_size dims -> getCell g i = Ok c -> isOccupied c = false ->
  solveEikonal g i = Ok u -> isTimeBetterThan u (c_val c) = true -> setArrivalTime g i u = Ok g' -> GI g' /\ Good u.
Hypothesis Good_wf : well_founded (fun x y : N => isTimeBetterThan x y = true /\ Good x).

Let Hp : proper dims := dims2_proper' dims Hd2.

Definition SR : list N -> list N -> Prop := vec1 (fun x y : N => isTimeBetterThan x y = true /\ Good x).
Definition SRp : list N -> list N -> Prop := clos_trans _ SR.

Lemma SRp_wf : well_founded SRp.
Proof. apply wf_clos_trans, vec1_wf, Good_wf. Qed.

Lemma vals_state (g : grid N) i s g' : setState g i s = Ok g' -> vals g' = vals g.
Proof.
  intros H. apply updCell_ok in H. destruct H as [c [Hc ->]]. unfold vals, with_cells. cbn [g_cells].
  rewrite map_lset. apply lset_id. rewrite nth_error_map. apply vget_ok in Hc. destruct Hc as [_ ->]. reflexivity.
Qed.

Lemma vals_better (g : grid N) i c u g' : getCell g i = Ok c -> isTimeBetterThan u (c_val c) = true -> Good u ->
  setArrivalTime g i u = Ok g' -> SRp (vals g') (vals g).
Proof.
  intros Hc Hb Hg H. apply updCell_ok in H. destruct H as [c' [Hc' ->]]. assert (c' = c) by congruence. subst c'.
  unfold vals, with_cells. cbn [g_cells]. rewrite map_lset. apply t_step. eapply vec1_lset.
  - rewrite nth_error_map. apply vget_ok in Hc. destruct Hc as [_ ->]. reflexivity.
  - cbn. auto.
Qed.

(** progress of one call: nothing changed, or some times got better *)
Definition moved (v v' : list N) (k k' : bool) : Prop := (v' = v /\ k' = k) \/ (SRp v' v /\ k' = true).

Lemma moved_trans v1 v2 v3 k1 k2 k3 : moved v1 v2 k1 k2 -> moved v2 v3 k2 k3 -> moved v1 v3 k1 k3.
Proof.
  intros [[-> ->]|[A ->]] [[-> ->]|[B ->]]; unfold moved; auto. right. split; [|reflexivity]. eapply t_trans; eauto.
Qed.

Definition solve_good (solve : sw_state -> Z -> res (sw_state (N := N))) : Prop :=
  forall s i c, GI (sw_g s) -> 0 <= i < box_size dims -> getCell (sw_g s) i = Ok c -> isOccupied c = false ->
  exists s', solve s i = Ok s' /\ GI (sw_g s') /\ moved (vals (sw_g s)) (vals (sw_g s')) (sw_keep s) (sw_keep s').

Lemma upd_total (g : grid N) i c (u : N) : getCell g i = Ok c -> exists g', setArrivalTime g i u = Ok g'.
Proof. intros H. eapply updCell_in; eauto. Qed.
Lemma st_total (g : grid N) i s : GI g -> 0 <= i < box_size dims -> exists g', setState g i s = Ok g' /\ GI g'.
Proof.
  intros H Hi. destruct (getCell_in dims g i (GI_ok _ H) Hi) as [c Hc].
  destruct (updCell_in g i c (fun c => with_state c s) Hc) as [g' Hg']. exists g'. split; [exact Hg'|]. eapply GI_state; eauto.
Qed.

Lemma fsm_good goal : solve_good (fsm_solveForIdx goal).
Proof.
  intros s i c HG Hi Hc Ho. unfold fsm_solveForIdx. unfold getArrivalTime. rewrite Hc. cbn [bind].
  destruct (solveEikonal_total L dims (sw_g s) i Hd2 Hlt (GI_ok _ HG) Hi) as [u Hu]. rewrite Hu. cbn [bind].
  destruct (isTimeBetterThan u (c_val c)) eqn:Eb.
  - destruct (upd_total _ _ _ u Hc) as [g' Hg']. rewrite Hg'. cbn [bind].
    destruct (GI_upd _ _ _ _ _ HG Hi Hc Ho Hu Eb Hg') as [G1 G2].
    eexists. split; [reflexivity|]. cbn. split; [exact G1|]. right. split; [|reflexivity].
    eapply vals_better; eauto.
  - destruct (negb (nisnan u) && negb (nisinf u) && (i =? goal)); eexists; (split; [reflexivity|]); cbn;
      (split; [exact HG|left; auto]).
Qed.

Lemma nbrs_loop_total (g : grid N) ns (t : N) :
  GI g -> (forall j, In j ns -> 0 <= j < box_size dims) ->
  exists g', foldM (fun g j => v <- getArrivalTime g j ;;
                            if isTimeBetterThan t v then setState g j OPEN else Ok g) ns g = Ok g' /\
    GI g' /\ vals g' = vals g.
Proof.
  intros HG Hr.
  destruct (foldM_inv (fun g' => GI g' /\ vals g' = vals g)
     (fun g j => v <- getArrivalTime g j ;; if isTimeBetterThan t v then setState g j OPEN else Ok g) ns g) as [g' [H1 H2]].
  - auto.
  - intros g1 j Hj [G1 V1]. destruct (getArrivalTime_in dims g1 j (GI_ok _ G1) (Hr j Hj)) as [v Hv]. rewrite Hv. cbn [bind].
    destruct (isTimeBetterThan t v); [|eauto]. destruct (st_total g1 j OPEN G1 (Hr j Hj)) as [g2 [H2 G2]].
    exists g2. split; [exact H2|]. split; [exact G2|]. rewrite (vals_state _ _ _ _ H2). exact V1.
  - exists g'. tauto.
Qed.

Lemma sh_ok g : GI g -> g_sh g = mk_shape dims.
Proof. intros H. apply (GI_ok _ H). Qed.

Lemma lsm_good goal : solve_good (lsm_solveForIdx goal).
Proof.
  intros s i c HG Hi Hc Ho. unfold lsm_solveForIdx. rewrite Hc. cbn [bind].
  destruct (fmstate_eqb (c_state c) OPEN).
  2:{ exists s. split; [reflexivity|]. split; [exact HG|left; auto]. }
  destruct (solveEikonal_total L dims (sw_g s) i Hd2 Hlt (GI_ok _ HG) Hi) as [u Hu]. rewrite Hu. cbn [bind].
  destruct (isTimeBetterThan u (c_val c)) eqn:Eb.
  - destruct (upd_total _ _ _ u Hc) as [g1 Hg1]. rewrite Hg1. cbn [bind].
    destruct (GI_upd _ _ _ _ _ HG Hi Hc Ho Hu Eb Hg1) as [G1 G2].
    rewrite (sh_ok _ G1), getNeighbors_eq by assumption. cbn [bind].
    destruct (nbrs_loop_total g1 (nbrs dims i) u G1) as [g2 [H2 [G3 V2]]].
    { intros j Hj. eapply nbrs_range; eauto. }
    rewrite H2. cbn [bind sw_g sw_keep sw_stop].
    destruct (st_total g2 i FROZEN G3 Hi) as [g3 [H3 G4]]. rewrite H3. cbn [bind].
    eexists. split; [reflexivity|]. cbn. split; [exact G4|]. right. split; [|reflexivity].
    rewrite (vals_state _ _ _ _ H3), V2. eapply vals_better; eauto.
  - destruct (st_total (sw_g s) i FROZEN HG Hi) as [g3 [H3 G4]].
    destruct (negb (nisnan u) && negb (nisinf u) && (i =? goal)); cbn [bind sw_g sw_keep sw_stop]; rewrite H3; cbn [bind];
      eexists; (split; [reflexivity|]); cbn; (split; [exact G4|left]); rewrite (vals_state _ _ _ _ H3); auto.
Qed.

Lemma one_sweep_eq solve incs (s : sw_state (N := N)) : GI (sw_g s) -> is_dir (length dims) incs ->
  one_sweep solve incs s = foldM (visit solve) (sweep_order incs dims) s.
Proof.
  intros HG Hd. unfold one_sweep. rewrite (sh_ok _ HG), recIter_flat, sweep_flat; auto.
  pose proof (box_size_pos _ Hp). lia.
Qed.

Lemma order_range incs i : is_dir (length dims) incs -> In i (sweep_order incs dims) -> 0 <= i < box_size dims.
Proof.
  intros Hd Hi. eapply Permutation_in in Hi; [|apply sweep_order_perm; auto]. apply in_zseq in Hi.
  pose proof (box_size_pos _ Hp). lia.
Qed.

Lemma sweep_good solve incs s : solve_good solve -> GI (sw_g s) -> is_dir (length dims) incs ->
  exists s', one_sweep solve incs s = Ok s' /\ GI (sw_g s') /\
             moved (vals (sw_g s)) (vals (sw_g s')) (sw_keep s) (sw_keep s').
Proof.
  intros Hs HG Hd. rewrite one_sweep_eq by assumption.
  apply (foldM_inv (fun s' : sw_state => GI (sw_g s') /\ moved (vals (sw_g s)) (vals (sw_g s')) (sw_keep s) (sw_keep s'))).
  - split; [exact HG|left; auto].
  - intros s1 i Hi [G1 M1]. apply order_range in Hi; [|exact Hd].
    unfold visit. destruct (getCell_in dims (sw_g s1) i (GI_ok _ G1) Hi) as [c Hc]. rewrite Hc. cbn [bind].
    destruct (isOccupied c) eqn:Eo; [eauto|].
    destruct (Hs s1 i c G1 Hi Hc Eo) as [s2 [H2 [G2 M2]]]. exists s2. split; [exact H2|]. split; [exact G2|].
    eapply moved_trans; eauto.
Qed.

Lemma sweep_loop_good solve ms : solve_good solve ->
  forall v, Acc SRp v -> forall s sweeps incs, vals (sw_g s) = v -> GI (sw_g s) -> is_dir (length dims) incs ->
  exists k r, forall fuel, (k <= fuel)%nat -> sweep_loop solve fuel ms sweeps incs s = Ok r.
Proof.
  intros Hs v Hv. induction Hv as [v _ IH]. intros s sweeps incs Ev HG Hd.
  destruct (sw_keep s && negb (sw_stop s) && (sweeps <? ms)) eqn:Ec.
  2:{ exists O, (s, sweeps, incs). intros [|fuel] _; cbn [sweep_loop]; rewrite Ec; reflexivity. }
  destruct (next_dir _ _ Hd) as [Hd' _].
  destruct (sweep_good solve (next_incs incs) (mkSw (sw_g s) false (sw_stop s)) Hs HG Hd') as [s' [H' [G' M']]].
  cbn [sw_g sw_keep] in M'.
  assert (Hrest : exists k r, forall fuel, (k <= fuel)%nat -> sweep_loop solve fuel ms (sweeps + 1) (next_incs incs) s' = Ok r).
  { destruct M' as [[V' K']|[V' K']].
    - exists O, (s', (sweeps + 1)%Z, next_incs incs). intros [|fuel] _; cbn [sweep_loop]; rewrite K'; reflexivity.
    - eapply IH; eauto. subst v. exact V'. }
  destruct Hrest as [k [r Hk]]. exists (S k), r. intros [|fuel] Hf; [lia|]. cbn [sweep_loop]. rewrite Ec, H'. cbn [bind].
  apply Hk. lia.
Qed.

(** without a sweep limit: from some limit on, the run does not depend on it *)
Lemma sweep_loop_free solve : solve_good solve ->
  forall v, Acc SRp v -> forall s sweeps incs, vals (sw_g s) = v -> GI (sw_g s) -> is_dir (length dims) incs ->
  exists k s' n incs', sweeps <= n /\ forall ms fuel, n < ms -> (k <= fuel)%nat -> sweep_loop solve fuel ms sweeps incs s = Ok (s', n, incs').
Proof.
  intros Hs v Hv. induction Hv as [v _ IH]. intros s sweeps incs Ev HG Hd.
  destruct (sw_keep s && negb (sw_stop s)) eqn:Ec.
  2:{ exists O, s, sweeps, incs. split; [lia|]. intros ms [|fuel] _ _; cbn [sweep_loop]; rewrite Ec; reflexivity. }
  destruct (next_dir _ _ Hd) as [Hd' _].
  destruct (sweep_good solve (next_incs incs) (mkSw (sw_g s) false (sw_stop s)) Hs HG Hd') as [s' [H' [G' M']]].
  cbn [sw_g sw_keep] in M'.
  assert (Hrest : exists k s2 n incs2, sweeps + 1 <= n /\ forall ms fuel, n < ms -> (k <= fuel)%nat ->
     sweep_loop solve fuel ms (sweeps + 1) (next_incs incs) s' = Ok (s2, n, incs2)).
  { destruct M' as [[V' K']|[V' K']].
    - exists O, s', (sweeps + 1)%Z, (next_incs incs). split; [lia|]. intros ms [|fuel] _ _; cbn [sweep_loop]; rewrite K'; reflexivity.
    - eapply IH; eauto. subst v. exact V'. }
  destruct Hrest as [k [s2 [n [incs2 [Hn Hk]]]]]. exists (S k), s2, n, incs2. split; [lia|].
  intros ms [|fuel] Hms Hf; [lia|]. cbn [sweep_loop]. rewrite Ec, H'.
  assert (E : (sweeps <? ms) = true) by (apply Z.ltb_lt; lia). rewrite E. cbn [andb bind]. apply Hk; lia.
Qed.

Lemma src_total g i : GI g -> 0 <= i < box_size dims -> exists g', setArrivalTime g i (n0 : N) = Ok g' /\ GI g'.
Proof.
  intros H Hi. destruct (getCell_in dims g i (GI_ok _ H) Hi) as [c Hc].
  destruct (upd_total g i c n0 Hc) as [g' Hg']. exists g'. split; [exact Hg'|]. eapply GI_src; eauto.
Qed.

Theorem fsm_terminates ms goal init sweeps incs g :
  GI g -> (forall i, In i init -> 0 <= i < box_size dims) -> is_dir (length dims) incs ->
  exists k r, forall fuel, (k <= fuel)%nat -> fsm_run fuel ms goal init sweeps incs g = Ok r.
Proof.
  intros HG Hr Hd. unfold fsm_run.
  destruct (foldM_inv GI (fun g i => setArrivalTime g i (n0 : N)) init g HG) as [g0 [H0 G0]].
  { intros g1 i Hi G1. apply src_total; auto. }
  rewrite H0. cbn [bind]. eapply (sweep_loop_good _ ms (fsm_good goal)); eauto using SRp_wf.
Qed.

Theorem fsm_terminates_free goal init sweeps incs g :
  GI g -> (forall i, In i init -> 0 <= i < box_size dims) -> is_dir (length dims) incs ->
  exists k s n incs', forall ms fuel, n < ms -> (k <= fuel)%nat -> fsm_run fuel ms goal init sweeps incs g = Ok (s, n, incs').
Proof.
  intros HG Hr Hd. unfold fsm_run.
  destruct (foldM_inv GI (fun g i => setArrivalTime g i (n0 : N)) init g HG) as [g0 [H0 G0]].
  { intros g1 i Hi G1. apply src_total; auto. }
  rewrite H0. cbn [bind]. destruct (sweep_loop_free _ (fsm_good goal) _ (SRp_wf _) (mkSw g0 true false) sweeps incs eq_refl G0 Hd) as [k [s [n [i [_ H]]]]].
  exists k, s, n, i. exact H.
Qed.

Lemma freeze_good g : GI g -> exists g', freeze_all g = Ok g' /\ GI g'.
Proof.
  intros HG. unfold freeze_all, gsize. rewrite (sh_ok _ HG).
  rewrite mk_shape_eq by (auto; pose proof (box_size_pos _ Hp); lia). cbn [s_n].
  apply foldM_inv; [exact HG|]. intros g1 i Hi G1. apply in_zseq in Hi. apply st_total; [exact G1|].
  pose proof (box_size_pos _ Hp). lia.
Qed.

Theorem lsm_terminates ms goal init sweeps incs g :
  GI g -> (forall i, In i init -> 0 <= i < box_size dims) -> is_dir (length dims) incs ->
  exists k r, forall fuel, (k <= fuel)%nat -> lsm_run fuel ms goal init sweeps incs g = Ok r.
Proof.
  intros HG Hr Hd. unfold lsm_run. destruct (freeze_good g HG) as [g0 [H0 G0]]. rewrite H0. cbn [bind].
  destruct (foldM_inv GI lsm_init1 init g0 G0) as [g1 [H1 G1]].
  { intros g2 i Hi G2. unfold lsm_init1. destruct (src_total g2 i G2 (Hr i Hi)) as [g3 [H3 G3]]. rewrite H3. cbn [bind].
    rewrite (sh_ok _ G3), getNeighbors_eq by auto. cbn [bind]. apply foldM_inv; [exact G3|].
    intros g4 j Hj G4. apply st_total; [exact G4|]. eapply nbrs_range; eauto. }
  rewrite H1. cbn [bind]. eapply (sweep_loop_good _ ms (lsm_good goal)); eauto using SRp_wf.
Qed.

Theorem lsm_terminates_free goal init sweeps incs g :
  GI g -> (forall i, In i init -> 0 <= i < box_size dims) -> is_dir (length dims) incs ->
  exists k s n incs', forall ms fuel, n < ms -> (k <= fuel)%nat -> lsm_run fuel ms goal init sweeps incs g = Ok (s, n, incs').
Proof.
  intros HG Hr Hd. unfold lsm_run. destruct (freeze_good g HG) as [g0 [H0 G0]]. rewrite H0. cbn [bind].
  destruct (foldM_inv GI lsm_init1 init g0 G0) as [g1 [H1 G1]].
  { intros g2 i Hi G2. unfold lsm_init1. destruct (src_total g2 i G2 (Hr i Hi)) as [g3 [H3 G3]]. rewrite H3. cbn [bind].
    rewrite (sh_ok _ G3), getNeighbors_eq by auto. cbn [bind]. apply foldM_inv; [exact G3|].
    intros g4 j Hj G4. apply st_total; [exact G4|]. eapply nbrs_range; eauto. }
  rewrite H1. cbn [bind]. destruct (sweep_loop_free _ (lsm_good goal) _ (SRp_wf _) (mkSw g1 true false) sweeps incs eq_refl G1 Hd) as [k [s [n [i [_ H]]]]].
  exists k, s, n, i. exact H.
Qed.

(** ** DDQM *)
Definition q_ok (l : list Z) : Prop := forall i, In i l -> 0 <= i < box_size dims.
Record DQI (s : dq_state (N := N)) : Prop := { dqi_g : GI (dq_g s); dqi_lo : q_ok (dq_lo s); dqi_hi : q_ok (dq_hi s) }.

Lemma q_ok_app a b : q_ok a -> q_ok b -> q_ok (a ++ b).
Proof. intros A B i H. apply in_app_or in H. destruct H; auto. Qed.

Lemma ddqm_neighbor_good t (s : dq_state (N := N)) j : DQI s -> 0 <= j < box_size dims ->
  exists s', ddqm_neighbor t s j = Ok s' /\ DQI s' /\ vals (dq_g s') = vals (dq_g s).
Proof.
  intros [G Ql Qh] Hj. unfold ddqm_neighbor. destruct (getCell_in dims (dq_g s) j (GI_ok _ G) Hj) as [c Hc].
  rewrite Hc. cbn [bind]. destruct (fmstate_eqb (c_state c) FROZEN && isTimeBetterThan t (c_val c)).
  2:{ exists s. split; [reflexivity|]. split; [constructor; auto|reflexivity]. }
  destruct (st_total (dq_g s) j OPEN G Hj) as [g' [Hg' G']]. rewrite Hg'. cbn [bind].
  assert (Qj : q_ok [j]) by (intros i [<-|[]]; exact Hj).
  destruct (isTimeBetterThan t (dq_th s)); eexists; (split; [reflexivity|]);
    (split; [constructor; cbn; auto using q_ok_app|]); cbn; apply (vals_state _ _ _ _ Hg').
Qed.

Lemma ddqm_pop1_good goal (s : dq_state (N := N)) idx : DQI s -> 0 <= idx < box_size dims ->
  exists s', ddqm_pop1 goal s idx = Ok s' /\ DQI s' /\
    ((vals (dq_g s') = vals (dq_g s) /\ dq_lo s' = dq_lo s /\ dq_hi s' = dq_hi s) \/ SRp (vals (dq_g s')) (vals (dq_g s))).
Proof.
  intros D Hi. pose proof D as [G Ql Qh]. unfold ddqm_pop1.
  destruct (getCell_in dims (dq_g s) idx (GI_ok _ G) Hi) as [c Hc]. rewrite Hc. cbn [bind].
  destruct (isOccupied c) eqn:Eo; [exists s; split; [reflexivity|]; split; [exact D|left; auto]|].
  destruct (solveEikonal_total L dims (dq_g s) idx Hd2 Hlt (GI_ok _ G) Hi) as [u Hu]. rewrite Hu. cbn [bind].
  destruct (isTimeBetterThan u (c_val c)) eqn:Eb.
  - destruct (upd_total _ _ _ u Hc) as [g1 Hg1]. rewrite Hg1. cbn [bind].
    destruct (GI_upd _ _ _ _ _ G Hi Hc Eo Hu Eb Hg1) as [G1 G2].
    rewrite (sh_ok _ G1), getNeighbors_eq by assumption. cbn [bind].
    set (s1 := mkDq g1 (dq_lo s) (dq_hi s) (dq_th s) (dq_step s) (dq_c0 s) (dq_c1 s) (dq_stop s)).
    destruct (foldM_inv (fun s2 => DQI s2 /\ vals (dq_g s2) = vals g1) (ddqm_neighbor u) (nbrs dims idx) s1) as [s2 [H2 [D2 V2]]].
    { split; [constructor; auto|reflexivity]. }
    { intros s3 j Hj [D3 V3]. destruct (ddqm_neighbor_good u s3 j D3) as [s4 [H4 [D4 V4]]]; [eapply nbrs_range; eauto|].
      exists s4. split; [exact H4|]. split; [exact D4|]. congruence. }
    rewrite H2. cbn [bind]. destruct D2 as [D2a D2b D2c].
    destruct (st_total (dq_g s2) idx FROZEN D2a Hi) as [g3 [H3 G3]]. rewrite H3. cbn [bind].
    eexists. split; [reflexivity|]. split; [constructor; auto|]. right. cbn. rewrite (vals_state _ _ _ _ H3), V2.
    eapply vals_better; eauto.
  - cbn [bind]. destruct (st_total (dq_g s) idx FROZEN G Hi) as [g3 [H3 G3]]. rewrite H3. cbn [bind].
    eexists. split; [reflexivity|]. split; [constructor; auto|]. left. cbn. rewrite (vals_state _ _ _ _ H3). auto.
Qed.

Definition qmeas (s : dq_state (N := N)) : nat :=
  (2 * (length (dq_lo s) + length (dq_hi s)) + match dq_lo s with [] => 1 | _ => 0 end)%nat.

Lemma ddqm_loop_good goal : forall v, Acc SRp v -> forall n s, (qmeas s < n)%nat -> vals (dq_g s) = v -> DQI s ->
  exists k r, forall fuel, (k <= fuel)%nat -> ddqm_loop fuel goal s = Ok r.
Proof.
  intros v Hv. induction Hv as [v _ IH]. induction n as [|n IHn]; intros s Hn Ev D; [lia|].
  pose proof D as [G Ql Qh].
  destruct (dq_lo s) as [|idx q] eqn:El.
  - (* swap *)
    set (s1 := increaseThreshold (mkDq (dq_g s) (dq_hi s) (dq_lo s) (dq_th s) (dq_step s) (dq_c0 s) (dq_c1 s) (dq_stop s))).
    destruct (dq_hi s) as [|h q] eqn:Eh.
    + exists 1%nat, s1. intros [|fuel] Hf; [lia|]. cbn [ddqm_loop]. rewrite El.
      unfold s1. rewrite ?Eh, ?El. destruct (dq_stop s) eqn:Es; cbn; reflexivity.
    + destruct (dq_stop s) eqn:Es.
      * exists 1%nat, s1. intros [|fuel] Hf; [lia|]. cbn [ddqm_loop]. unfold s1. rewrite ?El, ?Es, ?Eh. cbn. reflexivity.
      * destruct (IHn s1) as [k [r Hk]].
        { unfold qmeas in *. cbn in *. rewrite ?El, ?Eh in *. cbn in *. lia. }
        { exact Ev. }
        { constructor; cbn; [exact G|exact Qh|rewrite ?El; intros i []]. }
        exists (S k), r. intros [|fuel] Hf; [lia|]. specialize (Hk fuel ltac:(lia)). cbn [ddqm_loop].
        unfold s1 in Hk. rewrite ?El, ?Eh, ?Es in Hk. rewrite ?El, ?Eh, ?Es. cbn. exact Hk.
  - destruct (dq_stop s) eqn:Es.
    + exists 1%nat. destruct (dq_hi s) eqn:Eh; eexists; (intros [|fuel] Hf; [lia|]); cbn [ddqm_loop]; rewrite El, Es, Eh; cbn; reflexivity.
    + set (s0 := mkDq (dq_g s) q (dq_hi s) (dq_th s) (dq_step s) (dq_c0 s) (dq_c1 s) false).
      destruct (ddqm_pop1_good goal s0 idx) as [s' [H' [D' M']]].
      { constructor; cbn; auto. intros i Hi. apply Ql. right; exact Hi. }
      { apply Ql. left; reflexivity. }
      assert (Hrest : exists k r, forall fuel, (k <= fuel)%nat -> ddqm_loop fuel goal s' = Ok r).
      { destruct M' as [[V' [L' R']]|V'].
        - apply IHn; auto; [|cbn in V'; congruence]. unfold qmeas in *. rewrite L', R'. cbn [dq_lo dq_hi s0]. rewrite El in Hn. cbn in Hn.
          destruct q; cbn in *; lia.
        - eapply (IH (vals (dq_g s'))); [|apply (Nat.lt_succ_diag_r (qmeas s'))|reflexivity|exact D'].
          subst v. exact V'. }
      destruct Hrest as [k [r Hk]]. exists (S k), r. intros [|fuel] Hf; [lia|]. cbn [ddqm_loop]. rewrite El, Es.
      fold s0. rewrite H'. cbn [bind]. apply Hk. lia.
Qed.

Lemma ddqm_init_good init : (forall i, In i init -> 0 <= i < box_size dims) -> forall g q, GI g -> q_ok q ->
  exists g' q', foldM ddqm_init1 init (g, q) = Ok (g', q') /\ GI g' /\ q_ok q'.
Proof.
  intros Hr g q G Q.
  destruct (foldM_inv (fun s : grid N * list Z => GI (fst s) /\ q_ok (snd s)) ddqm_init1 init (g, q)) as [[g' q'] [H1 [H2 H3]]].
  - auto.
  - intros [g1 q1] i Hi [G1 Q1]. cbn in G1, Q1. unfold ddqm_init1. destruct (src_total g1 i G1 (Hr i Hi)) as [g3 [H3 G3]].
    rewrite H3. cbn [bind]. rewrite (sh_ok _ G3), getNeighbors_eq by auto. cbn [bind].
    apply foldM_inv; [auto|]. intros [g4 q4] j Hj [G4 Q4]. cbn in G4, Q4.
    assert (Hjr : 0 <= j < box_size dims) by (eapply nbrs_range; eauto).
    destruct (getCell_in dims g4 j (GI_ok _ G4) Hjr) as [c Hc]. rewrite Hc. cbn [bind].
    destruct (isOccupied c); [eexists; split; [reflexivity|]; auto|].
    destruct (st_total g4 j OPEN G4 Hjr) as [g5 [H5 G5]]. rewrite H5. cbn [bind]. eexists. split; [reflexivity|]. cbn.
    split; [exact G5|]. apply q_ok_app; auto. intros x [<-|[]]; exact Hjr.
  - exists g', q'. auto.
Qed.

Theorem ddqm_terminates goal init th step g :
  GI g -> (forall i, In i init -> 0 <= i < box_size dims) ->
  exists k r, forall fuel, (k <= fuel)%nat -> ddqm_run fuel goal init th step g = Ok r.
Proof.
  intros HG Hr. unfold ddqm_run. destruct (freeze_good g HG) as [g0 [H0 G0]]. rewrite H0. cbn [bind].
  destruct (ddqm_init_good init Hr g0 [] G0) as [g1 [q [H1 [G1 Q1]]]]; [intros i []|]. rewrite H1. cbn [bind].
  destruct q as [|a q]; [exists O; eauto|].
  eapply (ddqm_loop_good goal); [apply SRp_wf|apply Nat.lt_succ_diag_r|reflexivity|].
  constructor; cbn; auto. intros i [].
Qed.

End Term.

(** ** the two instances *)
Section Instances.
Variable dims : list Z.
Hypothesis Hd2 : dims2 dims.
Hypothesis Hlt : 2 * box_size dims <= 4294967296.

(** doubles: no hypothesis on velocities or times *)
Definition GI64 (g : grid F64) : Prop := grid_ok dims g.
Definition Good64 (x : F64) : Prop := True.

Lemma GI64_upd : forall (g : grid F64) i c u g', GI64 g -> 0 <= i < box_size dims -> getCell g i = Ok c -> isOccupied c = false ->
  solveEikonal g i = Ok u -> isTimeBetterThan u (c_val c) = true -> setArrivalTime g i u = Ok g' -> GI64 g' /\ Good64 u.
Proof. intros g i c u g' G _ _ _ _ _ H. split; [|exact I]. eapply updCell_grid_ok; eauto. Qed.

Lemma Good64_wf : well_founded (fun x y : F64 => isTimeBetterThan x y = true /\ Good64 x).
Proof. eapply wf_incl; [|apply better_wf_F64]. intros x y [H _]. exact H. Qed.

Definition GIX (g : grid XR) : Prop := grid_ok dims g /\ times_ok g /\ reals_ok g.

Lemma upd_times_ok (g : grid XR) i fn g' : updCell g i fn = Ok g' -> (forall c, c_val (fn c) = c_val c) -> times_ok g -> times_ok g'.
Proof.
  intros H Hv Hok j c Hc. rewrite (updCell_get _ _ _ _ j H) in Hc. destruct (i =? j); [|exact (Hok j c Hc)].
  destruct (getCell g j) as [c0|] eqn:E; [|discriminate]. injection Hc as <-. rewrite Hv. exact (Hok j c0 E).
Qed.

Lemma upd_reals_ok (g : grid XR) i fn g' : updCell g i fn = Ok g' -> (forall c, c_occ (fn c) = c_occ c) -> reals_ok g -> reals_ok g'.
Proof.
  intros H Hv [[h [E Hh]] Hr]. split.
  - exists h. destruct (updCell_fields _ _ _ _ H) as [_ [-> _]]. auto.
  - intros j c Hc. rewrite (updCell_get _ _ _ _ j H) in Hc. destruct (i =? j); [|exact (Hr j c Hc)].
    destruct (getCell g j) as [c0|] eqn:E0; [|discriminate]. injection Hc as <-. rewrite Hv. exact (Hr j c0 E0).
Qed.

Lemma GIX_state : forall g i s g', GIX g -> setState g i s = Ok g' -> GIX g'.
Proof.
  intros g i s g' [A [B C]] H. split; [eapply updCell_grid_ok; eauto|]. split.
  - eapply upd_times_ok; eauto.
  - eapply upd_reals_ok; eauto.
Qed.

Lemma GIX_src : forall g i g', GIX g -> setArrivalTime g i (n0 : XR) = Ok g' -> GIX g'.
Proof.
  intros g i g' [A [B C]] H. split; [eapply updCell_grid_ok; eauto|]. split.
  - eapply (set_times_ok g g' i 0); eauto. lra.
  - eapply upd_reals_ok; eauto.
Qed.

Lemma eik_nonneg (g : grid XR) i u : times_ok g -> reals_ok g -> free g i -> 0 <= i < box_size dims ->
  eik dims (slow g i) (times g) i = Some u -> (0 <= u)%R.
Proof.
  intros B C Hfr Hi E. destruct (eik_some dims _ _ _ _ E) as [Hne Hu].
  destruct (RF_bounds (slow g i) Rmargin _ (slow_pos g i C Hfr) Rmargin_pos Hne) as [_ [_ [x [Hx Hxu]]]].
  rewrite <- Hu in Hxu. apply upw_incl in Hx.
  destruct (in_somes_dmins dims (dims2_proper' _ Hd2) (times g) i x Hi Hx) as [k [_ Hk]].
  pose proof (times_nonneg g k x B Hk). lra.
Qed.

Lemma GIX_upd : forall (g : grid XR) i c u g', GIX g -> 0 <= i < box_size dims -> getCell g i = Ok c -> isOccupied c = false ->
  solveEikonal g i = Ok u -> isTimeBetterThan u (c_val c) = true -> setArrivalTime g i u = Ok g' -> GIX g' /\ xgood u.
Proof.
  intros g i c u g' [A [B C]] Hi Hc Ho Hu Hb H.
  assert (Hfr : free g i) by (exists c; auto).
  rewrite (solveEikonal_X dims g i Hd2 Hlt A B C Hfr Hi) in Hu. injection Hu as <-.
  destruct (eik dims (slow g i) (times g) i) as [u|] eqn:E; cbn [ox] in *.
  2:{ unfold isTimeBetterThan in Hb. rewrite xr_margin in Hb. cbn in Hb. destruct (c_val c); discriminate. }
  pose proof (eik_nonneg g i u B C Hfr Hi E) as Hu0.
  split; [|exact Hu0]. split; [eapply updCell_grid_ok; eauto|]. split.
  - eapply (set_times_ok g g' i u); eauto.
  - eapply upd_reals_ok; eauto.
Qed.

End Instances.

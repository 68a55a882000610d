(** Prop_FMM.v - property theorems C15-C19, C21, C22 (the Fast Marching Method). *)
From Coq Require Import Reals Lra Permutation Sorted.
From Verif Require Import Base BaseFacts Num NumXR NumF64 NumLaws Grid GridFacts GridUpd GridMore
  Eikonal FMMModel HeapRef HeapLaws Spec Obs Solution EikR Frame FMMStruct FMMPrefix XGrid FMMAbs FMMX Examples.
Open Scope Z_scope.

(** ** Vocabulary

    A run: setup done, narrow band empty, no bound on the number of iterations
    other than the fuel.  [log] lists the extracted cells, latest first. *)
Definition fmm_outcome {N : Num} (HO : HeapOps N) cfg goal init g fuel st log : Prop :=
  fmm_run HO fuel cfg goal init g (hempty HO) = Ok (st, log).

(** every state the main loop passes through *)
Inductive visited {N : Num} (HO : HeapOps N) cfg init g : fmm_state HO -> list Z -> Prop :=
| vis_init st : foldM (fmm_init1 HO cfg) init (mkFst g (hempty HO)) = Ok st -> visited HO cfg init g st []
| vis_step st log m st' : visited HO cfg init g st log ->
    fmm_step HO cfg st = Ok (Some (m, st')) -> visited HO cfg init g st' (m :: log).

(** a map with initial points in exact arithmetic: spacing > 0, real velocities *)
Definition exact_problem dims (g : grid XR) init : Prop :=
  shape_ok dims /\ clean_grid dims g /\ reals_ok g /\ points_ok dims init.

(** a heuristic strategy that needs no table, or whose table covers the grid
    (C24 shows it does after the precomputation) *)
Definition heuristic_ready {N : Num} dims (cfg : fmm_cfg (N := N)) : Prop :=
  fc_strat cfg = NOHEUR \/
  forall i, 0 <= i < box_size dims -> exists d, getPrecomputedDistance cfg (mk_shape dims) i = Ok d.

(** ** C15 *)

(** Every arithmetic, every heuristic, every goal, every heap that only keeps
    its content: one initial point, or initial points that are all obstacles
    (the way FM2 calls it). *)
Theorem C15_fmm_terminates_any_arithmetic :
  forall (N : Num) (L : NumLaws N) (HO : HeapOps N) (HL : HeapLaws HO) dims (g : grid N) init cfg goal fuel,
  shape_ok dims -> clean_grid dims g -> points_ok dims init -> heuristic_ready dims cfg ->
  (forall i, In i init -> obstacle g i) \/ (exists s, init = [s]) ->
  box_size dims < Z.of_nat fuel ->
  exists st log, fmm_outcome HO cfg goal init g fuel st log /\
    Z.of_nat (length log) <= box_size dims /\
    (helems HO (fs_h st) = [] \/ hd_error log = Some goal).
Proof.
  intros N L HO HL dims g init cfg goal fuel [H2 Hlt] [Hg Hc] [Hnd Hr] Hh Hq Hfuel.
  destruct (quiet_init HO HL dims cfg init Hh g Hg Hnd Hr) as [st [A [B C]]].
  { intros i c Hi. apply (Hc i c Hi). }
  { destruct Hq as [Hq|Hq]; [left|right; exact Hq]. intros i Hi [c [K1 K2]].
    destruct (Hq i Hi) as [c' [K3 K4]]. congruence. }
  destruct (quiet_loop L HO HL dims H2 Hlt cfg init Hh goal fuel st [] B C) as [st' [log [D [E [_ F]]]]].
  { cbn [length]. pose proof (box_size_pos _ (dims2_proper' _ H2)). lia. }
  exists st', log. unfold fmm_outcome, fmm_run. rewrite A. cbn [bind]. split; [exact D|].
  split.
  - pose proof (log_bound HO HL dims init _ _ _ E). pose proof (box_size_pos _ (dims2_proper' _ H2)). lia.
  - destruct F as [F|[r ->]]; [left; exact F|right; reflexivity].
Qed.
Print Assumptions C15_fmm_terminates_any_arithmetic.

(** IEEE doubles, with the reference heap: no hypothesis on the heap is left. *)
Theorem C15_fmm_terminates_doubles :
  forall dims (g : grid F64) s goal fuel,
  shape_ok dims -> clean_grid dims g -> 0 <= s < box_size dims -> box_size dims < Z.of_nat fuel ->
  exists st log, fmm_outcome RefHeap no_heur goal [s] g fuel st log /\ Z.of_nat (length log) <= box_size dims.
Proof.
  intros dims g s goal fuel H1 H2 H3 H4.
  destruct (C15_fmm_terminates_any_arithmetic F64 F64_laws RefHeap (RefHeap_laws F64_laws) dims g [s] no_heur goal fuel)
    as [st [log [A [B _]]]]; auto.
  - split; [repeat constructor; intros []|]. intros i [<-|[]]; exact H3.
  - left; reflexivity.
  - right; eauto.
  - exists st, log; auto.
Qed.

(** Exact arithmetic: any number of separated initial points. *)
Theorem C15_fmm_terminates_exact :
  forall (HO : HeapOps XR) (HL : HeapLaws HO) dims (g : grid XR) init goal fuel,
  exact_problem dims g init -> separated dims g init -> box_size dims < Z.of_nat fuel ->
  exists st log, fmm_outcome HO no_heur goal init g fuel st log /\
    Z.of_nat (length log) <= box_size dims /\
    (helems HO (fs_h st) = [] \/ hd_error log = Some goal).
Proof.
  intros HO HL dims g init goal fuel [[H2 Hlt] [[Hg Hc] [Hre [Hnd Hr]]]] Hs Hfuel.
  destruct (run_X HO HL dims H2 Hlt no_heur eq_refl init Hnd Hr g Hg Hre Hc Hs goal fuel) as [st [log [A [X [_ F]]]]]; [pose proof (box_size_pos _ (dims2_proper' _ H2)); lia|].
  exists st, log. split; [exact A|]. split.
  - pose proof (log_bound HO HL dims init _ _ _ (xs_s _ _ _ _ _ _ _ _ X)). pose proof (box_size_pos _ (dims2_proper' _ H2)). lia.
  - destruct F as [F|[r ->]]; [left; exact F|right; reflexivity].
Qed.
Print Assumptions C15_fmm_terminates_exact.

(** a 3x3 unit grid with an obstacle in the centre and sources in two corners *)
Definition ex_grid : grid XR := match setVelocity (new_grid [3;3] (XFin 1 : XR)) 4 (XFin 0) with Ok g => g | Fail _ => new_grid [3;3] (XFin 1 : XR) end.

Lemma ex_grid_cells i c : getCell ex_grid i = Ok c ->
  0 <= i < 9 /\ c = (if i =? 4 then with_occ (fresh_cell 4) (XFin 0 : XR) else fresh_cell i).
Proof.
  assert (Hn : grid_ok [3;3] (new_grid [3;3] (XFin 1 : XR))) by (apply new_grid_ok; [repeat constructor; lia|reflexivity]).
  destruct (getCell_in [3;3] _ 4 Hn ltac:(cbn; lia)) as [c4 E4].
  destruct (updCell_in _ _ _ (fun c => with_occ c (XFin 0 : XR)) E4) as [g1 H1].
  assert (E : ex_grid = g1). { unfold ex_grid. unfold setVelocity. rewrite H1. reflexivity. }
  rewrite E. intros Hc.
  pose proof (updCell_grid_ok _ _ _ _ _ H1 Hn) as [_ Hl]. pose proof (getCell_range _ _ _ Hc) as Hr. rewrite Hl in Hr. cbn in Hr.
  split; [exact Hr|]. rewrite (updCell_get _ _ _ _ i H1) in Hc. rewrite Z.eqb_sym.
  destruct (Z.eqb_spec 4 i) as [<-|Hne].
  - rewrite E4 in Hc. injection Hc as <-. apply new_grid_cell in E4. subst. reflexivity.
  - apply new_grid_cell in Hc. exact Hc.
Qed.

Lemma ex_grid_ok : grid_ok [3;3] ex_grid.
Proof.
  assert (Hn : grid_ok [3;3] (new_grid [3;3] (XFin 1 : XR))) by (apply new_grid_ok; [repeat constructor; lia|reflexivity]).
  destruct (getCell_in [3;3] _ 4 Hn ltac:(cbn; lia)) as [c4 E4].
  destruct (updCell_in _ _ _ (fun c => with_occ c (XFin 0 : XR)) E4) as [g1 H1].
  unfold ex_grid, setVelocity. rewrite H1. exact (updCell_grid_ok _ _ _ _ _ H1 Hn).
Qed.

Example C15_case : exact_problem [3;3] ex_grid [0;8] /\ separated [3;3] ex_grid [0;8] /\
  free ex_grid 1 /\ obstacle ex_grid 4.
Proof.
  assert (Hp : proper [3;3]) by (repeat constructor; lia).
  split; [|split; [|split]].
  - split; [split; [repeat constructor; lia|cbn; lia]|]. split; [|split].
    + split; [exact ex_grid_ok|]. intros i c Hc. apply ex_grid_cells in Hc. destruct Hc as [_ ->].
      destruct (i =? 4); auto.
    + split.
      * exists 1%R. split; [|lra]. unfold ex_grid.
        assert (Hn : grid_ok [3;3] (new_grid [3;3] (XFin 1 : XR))) by (apply new_grid_ok; [exact Hp|reflexivity]).
        destruct (getCell_in [3;3] _ 4 Hn ltac:(cbn; lia)) as [c4 E4].
        destruct (updCell_in _ _ _ (fun c => with_occ c (XFin 0 : XR)) E4) as [g1 H1].
        unfold setVelocity. rewrite H1. destruct (updCell_fields _ _ _ _ H1) as [_ [-> _]]. reflexivity.
      * intros i c Hc. apply ex_grid_cells in Hc. destruct Hc as [_ ->]. destruct (i =? 4); eexists; reflexivity.
    + split; [repeat constructor; cbn; lia|]. intros i [<-|[<-|[]]]; cbn; lia.
  - intros i j Hi Hj Ha. exfalso.
    assert (Hin : In j (nbrs [3;3] i)) by (apply nbrs_spec; [exact Hp|apply (adjacent_range _ _ _ Ha)|exact Ha]).
    destruct Hi as [<-|[<-|[]]]; cbn in Hin; destruct Hj as [<-|[<-|[]]]; lia.
  - destruct (getCell_in [3;3] ex_grid 1 ex_grid_ok ltac:(cbn; lia)) as [c Hc]. exists c. split; [exact Hc|].
    apply ex_grid_cells in Hc. destruct Hc as [_ ->]. apply (nl_1_free XR XR_laws).
  - destruct (getCell_in [3;3] ex_grid 4 ex_grid_ok ltac:(cbn; lia)) as [c Hc]. exists c. split; [exact Hc|].
    apply ex_grid_cells in Hc. destruct Hc as [_ ->]. apply (nl_0_occ XR XR_laws).
Qed.

(** ** C16 *)
Theorem C16_sources_at_zero :
  forall (HO : HeapOps XR) (HL : HeapLaws HO) dims (g : grid XR) init goal fuel st log i,
  exact_problem dims g init -> separated dims g init -> box_size dims < Z.of_nat fuel ->
  fmm_outcome HO no_heur goal init g fuel st log -> In i init -> time_is (fs_g st) i (XFin 0).
Proof.
  intros HO HL dims g init goal fuel st log i [[H2 Hlt] [[Hg Hc] [Hre [Hnd Hr]]]] Hs Hfuel Hrun Hi.
  destruct (run_X HO HL dims H2 Hlt no_heur eq_refl init Hnd Hr g Hg Hre Hc Hs goal fuel) as [st2 [log2 [A [X [Hd _]]]]]; [pose proof (box_size_pos _ (dims2_proper' _ H2)); lia|].
  assert (st2 = st) by (unfold fmm_outcome in Hrun; congruence). subst st2.
  destruct (b_init _ _ _ _ _ _ _ (h_base _ _ _ _ _ _ _ Hd) i Hi) as [_ HT].
  unfold times in HT. unfold time_is. destruct (getArrivalTime (fs_g st) i) as [[r| | |]|]; congruence.
Qed.
Print Assumptions C16_sources_at_zero.

Lemma init_zero {N : Num} (HO : HeapOps N) cfg l : forall st st',
  foldM (fmm_init1 HO cfg) l st = Ok st' ->
  (forall k c, getCell (fs_g st) k = Ok c -> exists c', getCell (fs_g st') k = Ok c' /\ c_occ c' = c_occ c /\ (c_val c = n0 -> c_val c' = n0)) /\
  (forall k, In k l -> exists c, getCell (fs_g st') k = Ok c /\ c_val c = n0).
Proof.
  induction l as [|x l IH]; intros st st' H; cbn [foldM] in H.
  { injection H as <-. split; [intros k c Hc; eauto|intros k []]. }
  apply bind_ok in H. destruct H as [s1 [H1 H2]]. destruct (IH _ _ H2) as [A B].
  unfold fmm_init1 in H1. apply bind_ok in H1. destruct H1 as [g1 [G1 H1]].
  apply bind_ok in H1. destruct H1 as [g2 [G2 H1]]. injection H1 as <-. cbn [fs_g] in *.
  assert (Hh : forall k c, getCell g1 k = Ok c -> exists c', getCell g2 k = Ok c' /\ c_occ c' = c_occ c /\ c_val c' = c_val c).
  { intros k c Hc. unfold fmm_heur in G2. 
    assert (Hset : forall d, setHeuristicTime g1 x d = Ok g2 -> exists c', getCell g2 k = Ok c' /\ c_occ c' = c_occ c /\ c_val c' = c_val c).
    { intros d Hd. rewrite (updCell_get _ _ _ _ k Hd). destruct (x =? k); rewrite Hc; eauto. }
    destruct (fc_strat cfg).
    - injection G2 as <-. eauto.
    - apply bind_ok in G2. destruct G2 as [d [_ G2]]. apply bind_ok in G2. destruct G2 as [c2 [_ G2]]. eauto.
    - apply bind_ok in G2. destruct G2 as [d [_ G2]]. eauto. }
  assert (Hx : exists c, getCell g1 x = Ok c /\ c_val c = n0).
  { destruct (proj1 (updCell_ok _ _ _ _) G1) as [c [Hc _]]. rewrite (updCell_get _ _ _ _ x G1), Z.eqb_refl, Hc. eauto. }
  split.
  - intros k c Hc.
    assert (exists c1, getCell g1 k = Ok c1 /\ c_occ c1 = c_occ c /\ (c_val c = n0 -> c_val c1 = n0)) as [c1 [K1 [K2 K3]]].
    { rewrite (updCell_get _ _ _ _ k G1). destruct (x =? k); rewrite Hc; eauto. }
    destruct (Hh k c1 K1) as [c2 [K4 [K5 K6]]]. destruct (A k c2 K4) as [c3 [K7 [K8 K9]]].
    exists c3. split; [exact K7|]. split; [congruence|]. intros E. apply K9. rewrite K6. auto.
  - intros k [<-|Hk]; [|apply B, Hk]. destruct Hx as [c [Hc Hv]]. destruct (Hh x c Hc) as [c2 [K4 [_ K6]]].
    destruct (A x c2 K4) as [c3 [K7 [_ K9]]]. exists c3. split; [exact K7|]. apply K9. congruence.
Qed.

(** Any arithmetic, any heap, any heuristic: an initial point that is an obstacle
    ends at time 0. *)
Theorem C16_obstacle_sources_at_zero :
  forall (N : Num) (HO : HeapOps N) (g : grid N) init cfg goal fuel st log i,
  fmm_outcome HO cfg goal init g fuel st log -> In i init -> obstacle g i -> time_is (fs_g st) i n0.
Proof.
  intros N HO g init cfg goal fuel st log i H Hi [c [Hc Ho]]. unfold fmm_outcome, fmm_run in H.
  apply bind_ok in H. destruct H as [s0 [H1 H2]].
  pose proof (fmm_loop_frame (fun _ => False) HO _ _ _ _ _ _ _ H2) as HF.
  destruct (init_zero HO cfg init _ _ H1) as [A B].
  destruct (A i c Hc) as [c1 [K1 [K2 _]]]. destruct (B i Hi) as [c1' [K1' K3]].
  assert (c1' = c1) by congruence. subst c1'.
  destruct HF as [_ [_ [_ [_ [_ HF]]]]]. destruct (HF i c1 K1) as [c2 [L1 [_ [_ L3]]]].
  unfold time_is, getArrivalTime. rewrite L1. cbn [bind]. rewrite L3; [congruence| |tauto].
  unfold isOccupied in *. rewrite K2. exact Ho.
Qed.
Print Assumptions C16_obstacle_sources_at_zero.

(** Any lawful arithmetic: a single initial point ends at time 0. *)
Theorem C16_single_source_at_zero :
  forall (N : Num) (HO : HeapOps N) (HL : HeapLaws HO) (g : grid N) s cfg goal fuel st log,
  fmm_outcome HO cfg goal [s] g fuel st log -> time_is (fs_g st) s n0.
Proof.
  intros N HO HL g s cfg goal fuel st log H. unfold fmm_outcome, fmm_run in H.
  apply bind_ok in H. destruct H as [s0 [H1 H2]].
  destruct (init_zero HO cfg [s] _ _ H1) as [_ B]. destruct (B s (or_introl eq_refl)) as [c [Hc Hv]].
  assert (Hel : hwf HL (fs_h s0) /\ Permutation (helems HO (fs_h s0)) [s]).
  { cbn [foldM] in H1. apply bind_ok in H1. destruct H1 as [s1 [H1 E]]. injection E as ->.
    unfold fmm_init1 in H1. apply bind_ok in H1. destruct H1 as [g1 [_ H1]].
    apply bind_ok in H1. destruct H1 as [g2 [_ H1]]. injection H1 as <-. cbn [fs_h].
    destruct (hl_empty HO HL) as [E1 E2]. destruct (hl_push HO HL (key g2) s (hempty HO) E1 ltac:(rewrite E2; intros [])) as [E3 E4].
    split; [exact E3|]. rewrite E4, E2. reflexivity. }
  destruct Hel as [Hwf Hel].
  destruct fuel as [|k]; cbn [fmm_loop] in H2; [discriminate|].
  apply bind_ok in H2. destruct H2 as [r [Hr H2]]. destruct r as [[m s1]|].
  - assert (Hm : m = s).
    { unfold fmm_step in Hr. destruct (hpop HO (key (fs_g s0)) (fs_h s0)) as [[m' h1]|] eqn:Hpop; [|discriminate].
      apply bind_ok in Hr. destruct Hr as [ns [_ Hr]]. apply bind_ok in Hr. destruct Hr as [g1 [_ Hr]].
      apply bind_ok in Hr. destruct Hr as [s2 [_ Hr]]. injection Hr as <- _.
      destruct (hl_pop HO HL _ _ _ _ Hwf Hpop) as [_ Hpm].
      assert (Hin : In m' [s]) by (eapply Permutation_in; [exact Hel|]; eapply Permutation_in; [symmetry; exact Hpm|left; reflexivity]).
      destruct Hin as [<-|[]]. reflexivity. }
    subst m.
    assert (Hs1 : exists c1, getCell (fs_g s1) s = Ok c1 /\ c_state c1 = FROZEN /\ c_val c1 = n0).
    { unfold fmm_step in Hr. destruct (hpop HO (key (fs_g s0)) (fs_h s0)) as [[m' h1]|] eqn:Hpop; [|discriminate].
      apply bind_ok in Hr. destruct Hr as [ns [_ Hr]]. apply bind_ok in Hr. destruct Hr as [g1 [G1 Hr]].
      apply bind_ok in Hr. destruct Hr as [s2 [F2 Hr]]. injection Hr as -> <-.
      assert (HK : keeps_frozen g1 (fs_g s2)).
      { refine (foldM_inv_partial (fun x => keeps_frozen g1 (fs_g x)) _ _ _ _ _ _ F2); [apply kf_refl|].
        intros x y x1 _ HK Hx. eapply kf_trans; [exact HK|]. eapply kf_neighbor; eauto. }
      assert (G : getCell g1 s = Ok (with_state c FROZEN)).
      { rewrite (updCell_get _ _ _ _ s G1), Z.eqb_refl, Hc. reflexivity. }
      destruct (HK s _ G eq_refl) as [c2 [K1 [K2 K3]]]. exists c2. split; [exact K1|]. split; [exact K2|].
      rewrite K3. exact Hv. }
    destruct Hs1 as [c1 [K1 [K2 K3]]].
    assert (HK : keeps_frozen (fs_g s1) (fs_g st)).
    { destruct (s =? goal).
      - injection H2 as <- <-. apply kf_refl.
      - eapply (loop_frozen HO cfg) with (log := [s]); [|exact H2]. intros i [<-|[]]. eauto. }
    destruct (HK s c1 K1 K2) as [c2 [L1 [_ L3]]]. unfold time_is, getArrivalTime. rewrite L1. cbn. congruence.
  - injection H2 as <- <-. unfold time_is, getArrivalTime. rewrite Hc. cbn. congruence.
Qed.
Print Assumptions C16_single_source_at_zero.

(** The proviso is needed: doubles, 3x3 unit grid, adjacent initial points 0 and
    1.  The run ends and cell 1 does not have time 0. *)
Theorem C16_adjacent_sources_refuted :
  exists st log t, fmm_outcome (RefHeap (N := F64)) no_heur noGoal [0;1] (new_grid [3;3] n1) 40 st log /\
    time_is (fs_g st) 1 t /\ nltb n0 t = true.
Proof.
  assert (H : match fmm_run (RefHeap (N := F64)) 40 no_heur noGoal [0;1] (new_grid [3;3] n1) (hempty _) with
              | Ok (st, _) => match getArrivalTime (fs_g st) 1 with Ok t => nltb n0 t | _ => false end
              | _ => false end = true) by (vm_compute; reflexivity).
  unfold fmm_outcome, time_is.
  destruct (fmm_run (RefHeap (N := F64)) 40 no_heur noGoal [0;1] (new_grid [3;3] n1) (hempty _)) as [[st log]|]; [|discriminate].
  destruct (getArrivalTime (fs_g st) 1) as [t|] eqn:E; [|discriminate]. exists st, log, t. auto.
Qed.
Print Assumptions C16_adjacent_sources_refuted.

(** ** C17 *)
Theorem C17_reaches_exactly_connected :
  forall (HO : HeapOps XR) (HL : HeapLaws HO) dims (g : grid XR) init fuel st log i,
  exact_problem dims g init -> separated dims g init -> box_size dims < Z.of_nat fuel ->
  fmm_outcome HO no_heur noGoal init g fuel st log -> 0 <= i < box_size dims ->
  ((exists t, time_is (fs_g st) i (XFin t)) <-> reachable dims (fun k => In k init) (free g) i) /\
  (~ (exists t, time_is (fs_g st) i (XFin t)) -> time_is (fs_g st) i XPInf).
Proof.
  intros HO HL dims g init fuel st log i [[H2 Hlt] [[Hg Hc] [Hre [Hnd Hr]]]] Hs Hfuel Hrun Hi.
  destruct (run_X HO HL dims H2 Hlt no_heur eq_refl init Hnd Hr g Hg Hre Hc Hs noGoal fuel) as [st2 [log2 [A [X _]]]]; [pose proof (box_size_pos _ (dims2_proper' _ H2)); lia|].
  assert (st2 = st) by (unfold fmm_outcome in Hrun; congruence). subst st2.
  pose proof (run_solution HO HL dims H2 Hlt no_heur eq_refl init Hnd Hr g Hg Hre Hc Hs noGoal fuel st log) as [S1 [S2 S3]].
  { unfold noGoal. lia. } { pose proof (box_size_pos _ (dims2_proper' _ H2)); lia. } { exact Hrun. }
  assert (Hown : exists c, getCell (fs_g st) i = Ok c) by (apply (getCell_in dims); [apply (si_grid _ _ _ _ _ _ _ (xs_s _ _ _ _ _ _ _ _ X))|exact Hi]).
  destruct Hown as [c Hci].
  pose proof (times_val _ _ _ (xs_tok _ _ _ _ _ _ _ _ X) Hci) as Hv.
  assert (Eq : (exists t, time_is (fs_g st) i (XFin t)) <-> times (fs_g st) i <> None).
  { unfold time_is, getArrivalTime. rewrite Hci. cbn [bind]. rewrite Hv.
    destruct (times (fs_g st) i) as [t|]; cbn [ox]; split; try congruence; eauto.
    intros [t Ht]. discriminate. }
  split.
  - rewrite Eq. apply (reached_iff dims _ _ (slow g) (dims2_proper' _ H2)) with (delta := (2 * M)%R); auto.
    + intros k Hk. apply slow_pos; assumption.
    + intros k. apply in_dec, Z.eq_dec.
  - rewrite Eq. intros Hn. unfold time_is, getArrivalTime. rewrite Hci. cbn [bind]. rewrite Hv.
    destruct (times (fs_g st) i); [exfalso; apply Hn; congruence|reflexivity].
Qed.
Print Assumptions C17_reaches_exactly_connected.

(** ** C18 *)

(** The final times are a discrete solution within 2*COMP_MARGIN ([solution] in
    Spec.v). *)
Theorem C18_fmm_solves_eikonal :
  forall (HO : HeapOps XR) (HL : HeapLaws HO) dims (g : grid XR) init fuel st log,
  exact_problem dims g init -> separated dims g init -> box_size dims < Z.of_nat fuel ->
  fmm_outcome HO no_heur noGoal init g fuel st log ->
  solution dims (fun i => In i init) (free g) (slow g) (2 * Rmargin) (times (fs_g st)).
Proof.
  intros HO HL dims g init fuel st log [[H2 Hlt] [[Hg Hc] [Hre [Hnd Hr]]]] Hs Hfuel Hrun.
  apply (run_solution HO HL dims H2 Hlt no_heur eq_refl init Hnd Hr g Hg Hre Hc Hs noGoal fuel st log); auto.
  - unfold noGoal. lia.
  - pose proof (box_size_pos _ (dims2_proper' _ H2)); lia.
Qed.
Print Assumptions C18_fmm_solves_eikonal.

(** The same, cell by cell: the upwind equation of the final neighbour times has
    exactly one root and the cell's time is at most 2*COMP_MARGIN above it. *)
Theorem C18_time_is_root_of_upwind_equation :
  forall (HO : HeapOps XR) (HL : HeapLaws HO) dims (g : grid XR) init fuel st log i t ms,
  exact_problem dims g init -> separated dims g init -> box_size dims < Z.of_nat fuel ->
  fmm_outcome HO no_heur noGoal init g fuel st log ->
  times (fs_g st) i = Some t -> ~ In i init -> minima dims (times (fs_g st)) i ms ->
  exists r, upwind_sum (somes ms) r = (slow g i * slow g i)%R /\
    (forall r', upwind_sum (somes ms) r' = (slow g i * slow g i)%R -> r' = r) /\
    (r <= t < r + 2 * Rmargin)%R.
Proof.
  intros HO HL dims g init fuel st log i t ms HP Hs Hfuel Hrun Ht Hi Hms.
  pose proof (C18_fmm_solves_eikonal HO HL dims g init fuel st log HP Hs Hfuel Hrun) as [S1 [S2 S3]].
  destruct HP as [[H2 Hlt] [[Hg Hc] [Hre [Hnd Hr]]]].
  destruct (sup_free _ _ _ _ _ S1 i t ms Ht Hi Hms) as [Hfr Hge].
  pose proof (slow_pos g i Hre Hfr) as Hf.
  assert (Hir : 0 <= i < box_size dims).
  { destruct Hfr as [c [Hci _]]. apply getCell_range in Hci. destruct Hg as [_ Hl]. rewrite Hl in Hci. exact Hci. }
  pose proof (sub_free _ _ _ _ _ _ S2 i t ms Hir Hfr Hi Ht Hms) as Hlt2.
  assert (Hne : somes ms <> []). { intros E. rewrite E in Hge. cbn in Hge. nra. }
  destruct (US_root_exists (slow g i) (somes ms) Hf Hne) as [r Hroot]. exists r. split; [exact Hroot|].
  split; [intros r' H'; eapply US_root_unique; eauto|]. split.
  - destruct (Rle_dec r t) as [L|L]; [exact L|exfalso].
    pose proof (US_strict (somes ms) t r ltac:(lra) ltac:(nra)). lra.
  - destruct (Rlt_dec t (r + 2 * Rmargin)) as [L|L]; [exact L|exfalso].
    pose proof (US_mono (somes ms) r (t - 2 * Rmargin) ltac:(lra)). lra.
Qed.
Print Assumptions C18_time_is_root_of_upwind_equation.

(** ** C19 *)
Theorem C19_accepted_in_order :
  forall (HO : HeapOps XR) (HL : HeapLaws HO) dims (g : grid XR) init goal fuel st log later a mid b earlier,
  exact_problem dims g init -> separated dims g init -> box_size dims < Z.of_nat fuel ->
  fmm_outcome HO no_heur goal init g fuel st log ->
  log = later ++ a :: mid ++ b :: earlier ->     (* b was extracted before a *)
  exists ta tb, time_is (fs_g st) a (XFin ta) /\ time_is (fs_g st) b (XFin tb) /\ (tb <= ta)%R.
Proof.
  intros HO HL dims g init goal fuel st log later a mid b earlier [[H2 Hlt] [[Hg Hc] [Hre [Hnd Hr]]]] Hs Hfuel Hrun E.
  destruct (run_X HO HL dims H2 Hlt no_heur eq_refl init Hnd Hr g Hg Hre Hc Hs goal fuel) as [st2 [log2 [A [X [Hd _]]]]]; [pose proof (box_size_pos _ (dims2_proper' _ H2)); lia|].
  assert (st2 = st /\ log2 = log) as [-> ->] by (unfold fmm_outcome in Hrun; split; congruence).
  pose proof (h_base _ _ _ _ _ _ _ Hd) as B. pose proof (b_sorted _ _ _ _ _ _ _ B) as HS.
  assert (Ha : In a log) by (rewrite E; apply in_or_app; right; left; reflexivity).
  assert (Hb : In b log) by (rewrite E; apply in_or_app; right; right; apply in_or_app; right; left; reflexivity).
  destruct (b_time _ _ _ _ _ _ _ B a (or_intror Ha)) as [ta Ta].
  destruct (b_time _ _ _ _ _ _ _ B b (or_intror Hb)) as [tb Tb].
  exists ta, tb.
  assert (Hti : forall k t, times (fs_g st) k = Some t -> time_is (fs_g st) k (XFin t)).
  { intros k t Hk. unfold times in Hk. unfold time_is. destruct (getArrivalTime (fs_g st) k) as [[r| | |]|]; congruence. }
  split; [apply Hti, Ta|]. split; [apply Hti, Tb|].
  rewrite E in HS. clear - HS Ta Tb. induction later as [|x l IH].
  - inversion HS as [|? ? _ HF]; subst. rewrite Forall_forall in HF.
    apply (HF b); auto. apply in_or_app; right; left; reflexivity.
  - apply IH. inversion HS; assumption.
Qed.
Print Assumptions C19_accepted_in_order.

(** The time of a cell never changes after it left the narrow band: any
    arithmetic, any heap, any heuristic. *)
Theorem C19_accepted_is_final :
  forall (N : Num) (HO : HeapOps N) cfg init g st log st' log' i,
  visited HO cfg init g st log -> steps HO cfg st log st' log' -> In i log ->
  exists t, time_is (fs_g st) i t /\ time_is (fs_g st') i t.
Proof.
  intros N HO cfg init g st log st' log' i Hv Hs Hi.
  assert (HL : forall st log, visited HO cfg init g st log -> log_frozen (fs_g st) log).
  { clear. intros st log H. induction H as [st H|st log m st' H IH Hs]; [intros i []|]. eapply log_frozen_step; eauto. }
  assert (HK : keeps_frozen (fs_g st) (fs_g st')).
  { clear Hv Hi. induction Hs as [st log|st log st1 log1 m st2 H IH Hst]; [apply kf_refl|].
    eapply kf_trans; [apply IH|]. eapply step_frozen; eauto. }
  destruct (HL _ _ Hv i Hi) as [c [Hc Hst]]. destruct (HK i c Hc Hst) as [c' [K1 [_ K2]]].
  exists (c_val c). unfold time_is, getArrivalTime. rewrite Hc, K1. cbn. rewrite K2. auto.
Qed.
Print Assumptions C19_accepted_is_final.

(** ** C21 *)
Theorem C21_each_cell_once :
  forall (HO : HeapOps XR) (HL : HeapLaws HO) dims (g : grid XR) init st log,
  exact_problem dims g init -> separated dims g init ->
  visited HO no_heur init g st log ->
  NoDup (helems HO (fs_h st) ++ log).
Proof.
  intros HO HL dims g init st log [[H2 Hlt] [[Hg Hc] [Hre [Hnd Hr]]]] Hs Hv.
  assert (HI : XS HO HL dims init g (fs_g st) (fs_h st) log /\
               Head dims init (free g) (slow g) (times (fs_g st)) (fun x => In x (helems HO (fs_h st))) log).
  { induction Hv as [st H|st log m st' H IH Hst].
    - destruct (init_X HO HL dims no_heur eq_refl init Hnd Hr g Hg Hc) as [s [A B]].
      assert (s = st) by congruence. subst. exact B.
    - destruct IH as [X Hd].
      destruct (step_X HO HL dims H2 Hlt no_heur eq_refl init g Hre Hs st log X Hd) as [[_ E]|[m' [s [E B]]]]; [congruence|].
      rewrite E in Hst. injection Hst as <- <-. exact B. }
  apply (si_nd _ _ _ _ _ _ _ (xs_s _ _ _ _ _ _ _ _ (proj1 HI))).
Qed.
Print Assumptions C21_each_cell_once.

Theorem C21_each_cell_once_any_arithmetic :
  forall (N : Num) (L : NumLaws N) (HO : HeapOps N) (HL : HeapLaws HO) dims (g : grid N) init cfg st log,
  shape_ok dims -> clean_grid dims g -> points_ok dims init -> heuristic_ready dims cfg ->
  (forall i, In i init -> obstacle g i) \/ (exists s, init = [s]) ->
  visited HO cfg init g st log -> NoDup (helems HO (fs_h st) ++ log).
Proof.
  intros N L HO HL dims g init cfg st log [H2 Hlt] [Hg Hc] [Hnd Hr] Hh Hq Hv.
  assert (HI : SInv HO HL dims init (fs_g st) (fs_h st) log /\ quiet HO init (fs_g st) log (fs_h st)).
  { induction Hv as [st H|st log m st' H IH Hst].
    - destruct (quiet_init HO HL dims cfg init Hh g Hg Hnd Hr) as [s [A B]].
      + intros i c Hi. apply (Hc i c Hi).
      + destruct Hq as [Hq|Hq]; [left|right; exact Hq]. intros i Hi [c [K1 K2]].
        destruct (Hq i Hi) as [c' [K3 K4]]. congruence.
      + assert (s = st) by congruence. subst. exact B.
    - destruct IH as [X Hd].
      destruct (quiet_step L HO HL dims H2 Hlt cfg init Hh st log X Hd) as [[_ E]|[m' [s [E B]]]]; [congruence|].
      rewrite E in Hst. injection Hst as <- <-. exact B. }
  apply (si_nd _ _ _ _ _ _ _ (proj1 HI)).
Qed.
Print Assumptions C21_each_cell_once_any_arithmetic.

(** ** C22 *)

(** Two runs on the same map, one with a goal and one without (noGoal is the
    value goal_idx_ has then): the first is the second stopped right after the goal
    was accepted (or it is the whole run), and the cells it accepted have the same
    final times in both. *)
Theorem C22_goal_run_is_prefix :
  forall (N : Num) (HO : HeapOps N) cfg goal init (g : grid N) fuel fuel' st1 log1 st2 log2,
  Z.of_nat (length (g_cells g)) < 4294967296 ->
  fmm_outcome HO cfg goal init g fuel st1 log1 ->
  fmm_outcome HO cfg noGoal init g fuel' st2 log2 ->
  (st1 = st2 /\ log1 = log2 \/ exists r, log1 = goal :: r) /\
  (exists l, log2 = l ++ log1) /\
  (forall i, In i log1 -> exists t, time_is (fs_g st1) i t /\ time_is (fs_g st2) i t).
Proof. intros. eapply goal_prefix; eauto. Qed.
Print Assumptions C22_goal_run_is_prefix.

(** if the full run accepts the goal at all, both runs give it the same time *)
Theorem C22_goal_time_unchanged :
  forall (N : Num) (HO : HeapOps N) cfg goal init (g : grid N) fuel fuel' st1 log1 st2 log2,
  Z.of_nat (length (g_cells g)) < 4294967296 ->
  fmm_outcome HO cfg goal init g fuel st1 log1 ->
  fmm_outcome HO cfg noGoal init g fuel' st2 log2 -> In goal log2 ->
  exists t, time_is (fs_g st1) goal t /\ time_is (fs_g st2) goal t.
Proof.
  intros N HO cfg goal init g fuel fuel' st1 log1 st2 log2 Hsz H1 H2 Hin.
  destruct (C22_goal_run_is_prefix N HO cfg goal init g fuel fuel' st1 log1 st2 log2 Hsz H1 H2) as [[[-> ->]|[r ->]] [_ Hall]].
  - apply Hall, Hin.
  - apply Hall. left; reflexivity.
Qed.
Print Assumptions C22_goal_time_unchanged.

(** a run on doubles with a goal stops after 3 of the 9 extractions *)
Example C22_case :
  match fmm_run (RefHeap (N := F64)) 40 no_heur 3 [0] (new_grid [3;3] n1) (hempty _),
        fmm_run (RefHeap (N := F64)) 40 no_heur noGoal [0] (new_grid [3;3] n1) (hempty _) with
  | Ok (_, l1), Ok (_, l2) => (length l1 =? 3)%nat && (length l2 =? 9)%nat
  | _, _ => false
  end = true.
Proof. vm_compute. reflexivity. Qed.

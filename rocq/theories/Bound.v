(** Bound.v - what the elementary steps of Evolve.v imply for every solver: only
    cells connected to a source are ever reached (any arithmetic), and no time is
    ever below the exact solution of the discretised equation (exact arithmetic). *)
From Coq Require Import Reals Lra.
From Verif Require Import Base BaseFacts Num NumXR NumLaws Grid GridFacts GridUpd GridMore Eikonal
  FMMModel SweepModel QueueModel UntidyModel Spec Obs EikR Solution XGrid FMMAbs FMMX Relax Exact Evolve.
Open Scope Z_scope.

(** ** reached cells are connected to a source: any arithmetic *)
Section Reach.
Context {N : Num}.
Variable L : NumLaws N.
Variable dims : list Z.
Hypothesis H2 : dims2 dims.
Hypothesis Hlt : 2 * box_size dims <= 4294967296.

Lemma collectT_in (g : grid N) i ts m : grid_ok dims g -> 0 <= i < box_size dims ->
  collectT g i = Ok ts -> In m ts ->
  exists j, adjacent dims i j /\ getArrivalTime g j = Ok m /\ nisinf m = false.
Proof.
  intros Hg Hi H Hm. pose proof (dims2_proper _ H2) as Hp. unfold collectT in H.
  assert (Hd : s_dims (g_sh g) = dims).
  { destruct Hg as [-> _]. rewrite mk_shape_eq; [reflexivity|exact Hp|lia]. }
  rewrite Hd in H.
  assert (G : forall m, In m ts -> exists j, adjacent dims i j /\ getArrivalTime g j = Ok m /\ nisinf m = false).
  { refine (foldM_inv_partial (fun ts => forall m, In m ts -> exists j, adjacent dims i j /\ getArrivalTime g j = Ok m /\ nisinf m = false) _ _ _ _ _ _ H).
    - intros ? [].
    - intros acc d acc' Hd' HI Hs. apply in_seq in Hd'. cbn [Nat.add] in Hd'.
      apply bind_ok in Hs. destruct Hs as [m1 [M1 Hs]]. apply bind_ok in Hs. destruct Hs as [o [_ Hs]].
      destruct (nisinf m1) eqn:Ei; cbn [negb andb] in Hs; [injection Hs as <-; exact HI|].
      destruct (nltb m1 o); injection Hs as <-; [|exact HI].
      intros m2 Hm2. apply in_app_or in Hm2. destruct Hm2 as [Hm2|[<-|[]]]; [auto|].
      destruct (min_in_dim L dims g (None, None) i d Hp Hlt Hg Hi (proj2 Hd') (dims2_nth _ _ H2 (proj2 Hd')))
        as [m3 [buf' [_ [Hm3 [[j [Hj1 Hj2]] _]]]]].
      assert (m3 = m1) by congruence. subst m3. exists j. split; [eapply adjacent_in_adjacent; eauto|auto]. }
  auto.
Qed.

Lemma solve_reached (g : grid N) i t : grid_ok dims g -> 0 <= i < box_size dims -> solveEikonal g i = Ok t ->
  t = ninf \/ exists j v, adjacent dims i j /\ getArrivalTime g j = Ok v /\ nisinf v = false.
Proof.
  intros Hg Hi H. unfold solveEikonal in H. apply bind_ok in H. destruct H as [ts [Hts H]].
  destruct ts as [|m ts]; [left; congruence|]. right.
  destruct (collectT_in g i (m :: ts) m Hg Hi Hts (or_introl eq_refl)) as [j [A [B C]]]. eauto.
Qed.

Theorem ev_reachable init (g0 g : grid N) : grid_ok dims g0 ->
  (forall i c, getCell g0 i = Ok c -> c_val c = ninf) ->
  ev init g0 g ->
  forall i c, getCell g i = Ok c -> c_val c = ninf \/ reachable dims (fun i => In i init) (free g0) i.
Proof.
  intros Hg0 H0 H. induction H as [g0|g0 g i f g' He IH Hm H|g0 g i g' He IH Hi H|g0 g i t g' He IH Hf Hs H]; intros k c Hc.
  - left. eauto.
  - rewrite (updCell_get _ _ _ _ k H) in Hc. destruct (i =? k); [|eapply IH; eauto].
    destruct (getCell g k) as [c0|] eqn:E; [|discriminate]. injection Hc as <-.
    destruct (Hm c0) as [-> _]. eapply IH; eauto.
  - rewrite (updCell_get _ _ _ _ k H) in Hc. destruct (Z.eqb_spec i k) as [<-|Hne]; [|eapply IH; eauto].
    right. constructor. exact Hi.
  - rewrite (updCell_get _ _ _ _ k H) in Hc. destruct (Z.eqb_spec i k) as [<-|Hne]; [|eapply IH; eauto].
    destruct (getCell g i) as [c0|] eqn:E; [|discriminate]. injection Hc as <-. cbn [with_val c_val].
    pose proof (ev_frame _ _ _ He) as HF.
    assert (Hg : grid_ok dims g) by (eapply frame_grid_ok; eauto).
    assert (Hi : 0 <= i < box_size dims) by (apply getCell_range in E; destruct Hg as [_ <-]; exact E).
    destruct (solve_reached g i t Hg Hi Hs) as [->|[j [v [A [B C]]]]]; [left; reflexivity|right].
    unfold getArrivalTime in B. apply bind_ok in B. destruct B as [cj [B1 B2]]. injection B2 as <-.
    eapply reach_step; [|apply adjacent_sym; exact A|].
    + destruct (IH Hg0 H0 j cj B1) as [Hv|Hr]; [|exact Hr]. rewrite Hv, (nl_isinf_inf N L) in C. discriminate.
    + eapply ev_free_inv; eauto.
Qed.
End Reach.

(** ** no time below the exact solution *)
Section Lower.
Variables (dims : list Z) (init : list Z).
Hypothesis H2 : dims2 dims.
Hypothesis Hlt : 2 * box_size dims <= 4294967296.

(** every time is at or above [U] *)
Definition above (U T : time_map) : Prop :=
  forall i t, T i = Some t -> exists u, U i = Some u /\ (u <= t)%R.

Lemma eik_above fr f U T i r : exact_solution dims (fun i => In i init) fr f U -> (forall i, fr i -> 0 < f i)%R ->
  0 <= i < box_size dims -> fr i -> (forall k t, T k = Some t -> 0 <= t)%R ->
  above U T -> eik dims (f i) T i = Some r -> (0 <= r)%R /\ exists u, U i = Some u /\ (u <= r)%R.
Proof.
  intros HU Hf Hi Hfi Hnn Ha He. pose proof (dims2_proper _ H2) as Hp.
  destruct (eik_some _ _ _ _ _ He) as [Hne Hr].
  destruct (RF_bounds (f i) Rmargin _ (Hf i Hfi) Rmargin_pos Hne) as [R1 [_ [x [Hx Hxr]]]]. rewrite <- Hr in *.
  apply upw_incl in Hx. destruct (in_somes_dmins dims Hp T i x Hi Hx) as [k [Hk HTk]].
  pose proof (Hnn k x HTk) as Hx0. split; [lra|].
  destruct (in_dec Z.eq_dec i init) as [Hs|Hs].
  { exists 0%R. split; [apply (ex_src _ _ _ _ _ HU i Hs)|lra]. }
  destruct (U i) as [u|] eqn:Eu.
  - exists u. split; [reflexivity|]. destruct (Rle_dec u r) as [Hle|Hgt]; [exact Hle|exfalso].
    destruct (ex_eq _ _ _ _ _ HU i u _ Eu Hs (dmins_spec dims U i Hp Hi)) as [_ Heq].
    assert (A : (upwind_sum (somes (dmins dims T i)) r <= upwind_sum (somes (dmins dims U i)) r)%R).
    { apply US_le; auto. }
    pose proof (US_upw_le (T i) (dmins dims T i) r) as B.
    assert (C : (upwind_sum (somes (dmins dims U i)) r < upwind_sum (somes (dmins dims U i)) u)%R).
    { apply US_strict; [lra|]. rewrite Heq. pose proof (Hf i Hfi). nra. }
    lra.
  - exfalso. pose proof (ex_inf _ _ _ _ _ HU i k Hi Hfi Hs Eu Hk) as HN.
    destruct (Ha k x HTk) as [y [Ey _]]. congruence.
Qed.

Theorem ev_above U (g0 g : grid XR) : grid_ok dims g0 -> reals_ok g0 ->
  exact_solution dims (fun i => In i init) (free g0) (slow g0) U ->
  (forall i c, getCell g0 i = Ok c -> c_val c = XPInf) ->
  ev init g0 g -> times_ok g /\ above U (times g).
Proof.
  intros Hg0 Hr0 HU H0 H. induction H as [g0|g0 g i f g' He IH Hm H|g0 g i g' He IH Hi H|g0 g i t g' He IH Hf Hs H].
  - split.
    + intros i c Hc. left. eauto.
    + intros i t Ht. unfold times, getArrivalTime in Ht. destruct (getCell g0 i) as [c|] eqn:E; [|discriminate].
      cbn in Ht. rewrite (H0 i c E) in Ht. discriminate.
  - destruct (IH Hg0 Hr0 HU H0) as [A B]. split.
    + intros k c Hc. rewrite (updCell_get _ _ _ _ k H) in Hc. destruct (i =? k); [|eapply A; eauto].
      destruct (getCell g k) as [c0|] eqn:E; [|discriminate]. injection Hc as <-.
      destruct (Hm c0) as [-> _]. eapply A; eauto.
    + rewrite (times_upd_keep g i f g' H); [exact B|]. intros c. apply Hm.
  - destruct (IH Hg0 Hr0 HU H0) as [A B]. split.
    + intros k c Hc. rewrite (updCell_get _ _ _ _ k H) in Hc. destruct (i =? k); [|eapply A; eauto].
      destruct (getCell g k) as [c0|] eqn:E; [|discriminate]. injection Hc as <-. right. exists 0%R. split; [reflexivity|lra].
    + rewrite (times_set g i 0 g' H). intros k s Hk. destruct (Z.eq_dec k i) as [->|Hne].
      * rewrite upd_same in Hk. injection Hk as <-. exists 0%R. split; [apply (ex_src _ _ _ _ _ HU i Hi)|lra].
      * rewrite upd_other in Hk by exact Hne. apply (B k s Hk).
  - destruct (IH Hg0 Hr0 HU H0) as [A B]. pose proof (ev_frame _ _ _ He) as HF.
    assert (Hg : grid_ok dims g) by (eapply frame_grid_ok; eauto).
    assert (Hr : reals_ok g) by (eapply frame_reals; eauto).
    assert (Hi : 0 <= i < box_size dims).
    { destruct Hf as [c [Hc _]]. apply getCell_range in Hc. destruct Hg as [_ <-]. exact Hc. }
    rewrite (solveEikonal_X dims g i H2 Hlt Hg A Hr Hf Hi) in Hs.
    rewrite (frame_slow _ _ _ HF) in Hs. injection Hs as <-.
    destruct (eik dims (slow g0 i) (times g) i) as [r|] eqn:Ee.
    + destruct (eik_above (free g0) (slow g0) U (times g) i r HU) as [R0 R1]; auto.
      { intros k Hk. apply slow_pos; assumption. }
      { eapply ev_free_inv; eauto. }
      { intros k s. apply times_nonneg, A. }
      split.
      * intros k c Hc. rewrite (updCell_get _ _ _ _ k H) in Hc. destruct (i =? k); [|eapply A; eauto].
        destruct (getCell g k) as [c0|] eqn:E; [|discriminate]. injection Hc as <-. right. exists r. auto.
      * rewrite (times_set g i r g' H). intros k s Hk. destruct (Z.eq_dec k i) as [->|Hne].
        -- rewrite upd_same in Hk. injection Hk as <-. exact R1.
        -- rewrite upd_other in Hk by exact Hne. apply (B k s Hk).
    + cbn [ox] in H. split.
      * intros k c Hc. rewrite (updCell_get _ _ _ _ k H) in Hc. destruct (i =? k); [|eapply A; eauto].
        destruct (getCell g k) as [c0|] eqn:E; [|discriminate]. injection Hc as <-. left. reflexivity.
      * intros k s Hk. unfold times, getArrivalTime in Hk. rewrite (updCell_get _ _ _ _ k H) in Hk.
        destruct (i =? k) eqn:Ek.
        -- destruct (getCell g k); cbn in Hk; discriminate.
        -- apply (B k s). exact Hk.
Qed.
End Lower.

(** ** all solvers *)
Section All.
Context {N : Num}.

(** [g'] is the grid some solver ends with when it starts on [g] with initial
    points [init]: any heap, heuristic, goal, step, limit, tolerance or queue *)
Inductive solver_run (g : grid N) (init : list Z) : grid N -> Prop :=
| sr_fmm (HO : HeapOps N) fuel cfg goal h0 st log :
    fmm_run HO fuel cfg goal init g h0 = Ok (st, log) -> solver_run g init (fs_g st)
| sr_fsm fuel maxSweeps goal sweeps incs s n incs' :
    fsm_run fuel maxSweeps goal init sweeps incs g = Ok (s, n, incs') -> solver_run g init (sw_g s)
| sr_lsm fuel maxSweeps goal sweeps incs s n incs' :
    lsm_run fuel maxSweeps goal init sweeps incs g = Ok (s, n, incs') -> solver_run g init (sw_g s)
| sr_ddqm fuel goal th step s :
    ddqm_run fuel goal init th step g = Ok s -> solver_run g init (dq_g s)
| sr_fim fuel E goal g' l ub :
    fim_run fuel E goal init g = Ok (g', l, ub) -> solver_run g init g'
| sr_gmm fuel dt goal s :
    gmm_run fuel dt goal init g = Ok s -> solver_run g init (gm_g s)
| sr_ufmm fuel goal q s log :
    ufmm_run fuel goal init g q = Ok (s, log) -> solver_run g init (uf_g s).

Lemma solver_ev g init g' : solver_run g init g' -> ev init g g'.
Proof.
  intros [HO fuel cfg goal h0 st log H|fuel ms goal sw incs s n incs' H|fuel ms goal sw incs s n incs' H
         |fuel goal th step s H|fuel E goal g1 l ub H|fuel dt goal s H|fuel goal q s log H].
  - eapply fmm_run_ev; eauto.
  - exact (fsm_run_ev _ _ _ _ _ _ _ _ H).
  - exact (lsm_run_ev _ _ _ _ _ _ _ _ H).
  - eapply ddqm_run_ev; eauto.
  - exact (fim_run_ev _ _ _ _ _ _ H).
  - eapply gmm_run_ev; eauto.
  - exact (ufmm_run_ev _ _ _ _ _ _ H).
Qed.
End All.

(** Prop_Continue.v - property theorems C89: compute() called again without a goal after a run
    that stopped at its goal finishes the job (FIM, FSM), or does not (LSM, GMM, UFMM). *)
From Coq Require Import Permutation.
From Verif Require Import Base BaseFacts Num NumXR NumF64 NumLaws NumWf Grid GridFacts GridUpd GridMore Spec Obs Examples Eikonal FMMModel HeapLaws HeapRef BagHeap
  SweepModel QueueModel UntidyModel SweepOrder Frame SolverModel Lifecycle FMMStruct FMMReach NoGoal Term Safe
  Prop_FMM Prop_Solver Prop_Sweep Prop_Heap Prop_SFMM Prop_History Prop_Calls Prop_Repeat.
Open Scope Z_scope.

(** After a run with a goal ([g1] is what it left, and [also] holds of it), setting the same
    initial points without a goal and calling compute() gives the grid [g2] exactly when a new
    run without a goal on the same map does. *)
Definition continues {N : Num} (A : api N) (also : list Z -> grid N -> Prop) : Prop :=
  forall m init goal f1 o g o1 g1, good_map m -> points_in m init goal ->
  a_env A (a_new A) (Some m) = Ok (o, g) -> a_comp A f1 (a_pts A o init goal) g = Ok (o1, g1) -> also init g1 ->
  forall g2, (exists f o2, a_comp A f (a_pts A o1 init (-1)) g1 = Ok (o2, g2)) <-> (exists f o2, a_comp A f (a_pts A o init (-1)) g = Ok (o2, g2)).

(** the initial points have time 0 and are accepted *)
Definition sources_done {N : Num} (init : list Z) (g : grid N) : Prop := forall i, In i init -> exists c, getCell g i = Ok c /\ c_val c = n0 /\ c_state c = FROZEN.

Section Cont.
Context {N : Num}.

Lemma st_same (g : grid N) i c s : getCell g i = Ok c -> c_state c = s -> setState g i s = Ok g.
Proof.
  intros Ec <-. apply updCell_ok. exists c. split; [exact Ec|].
  replace (with_state c (c_state c)) with c by (destruct c; reflexivity). apply vget_ok in Ec. destruct Ec as [_ Ec]. rewrite (lset_id _ _ _ Ec). destruct g; reflexivity.
Qed.

(** what the first compute() of a run with any goal starts with, and what one without a goal does *)
Lemma goal_setup (m : grid N) init goal : good_map m -> points_in m init goal ->
  exists dims, shape_ok dims /\ grid_ok dims (setClean (clean m) false) /\ grid_ok dims (clean m) /\ (forall x, In x init -> 0 <= x < box_size dims) /\
  forall r, solver_setup (mkSolver GSet false init (Some (u32 goal))) (clean m) = Ok r ->
    r = (mkSolver GSet true init (Some (u32 goal)), setClean (clean m) false) /\
    solver_setup (mkSolver GSet false init (Some (u32 (-1)))) (clean m) = Ok (mkSolver GSet true init (Some noGoal), setClean (clean m) false).
Proof.
  intros Hm Hp. destruct (setup_good m init goal Hm Hp) as [dims [Hs [Hg [Hg' [Hi [Hk K]]]]]]. exists dims. split; [exact Hs|]. split; [exact Hg|]. split; [exact Hg'|]. split; [exact Hi|].
  intros r Hr. split; [destruct K as [K|K]; rewrite K in Hr; [discriminate|inversion Hr; reflexivity]|].
  assert (Hp1 : points_in m init (-1)). { intros d Hd. destruct (Hp d Hd) as [A _]. split; [exact A|left; reflexivity]. }
  destruct (setup_good m init (-1) Hm Hp1) as [_ [_ [_ [_ [_ [_ [K1|K1]]]]]]]; [exfalso|exact K1].
  revert K1. unfold solver_setup in *. apply bind_ok in Hr. destruct Hr as [x [Hx Hr]]. destruct (x =? 0) eqn:Ex0; [|discriminate]. clear Hr. apply Z.eqb_eq in Ex0. subst x.
  assert (E : sanityChecks (mkSolver GSet false init (Some (u32 (-1)))) (clean m) = Ok 0).
  { unfold sanityChecks, goal_of in *. cbn [sv_grid sv_init sv_goal] in *. change (s32 (u32 (-1))) with (-1). destruct (negb (g_clean (clean m))); [discriminate|].
    destruct init as [|i0 more]; [discriminate|].
    destruct (match more with [] => c <- getCell (clean m) i0;; Ok (isOccupied c) | _ => Ok false end) as [b4|]; [|discriminate]. cbn [bind] in *. destruct b4; [discriminate|].
    cbn [Z.eqb Pos.eqb negb bind]. destruct (existsb _ (i0 :: more)) eqn:Ee in |- *; [exfalso|reflexivity].
    apply existsb_exists in Ee. destruct Ee as [y [Hy Ey]]. apply Z.eqb_eq in Ey. specialize (Hi y Hy). destruct Hs as [_ Hlt]. assert (Em : s32 (u32 (-1)) = -1) by reflexivity. rewrite Em in Ey. clear -Ey Hi Hlt.
    unfold s32, u32 in Ey. rewrite (Z.mod_small y) in Ey by lia. revert Ey. destruct (Z.ltb_spec y 2147483648); intros Ey; lia. }
  rewrite E. discriminate.
Qed.

(** ** FIM *)
Lemma fim_pass_any E goal after : forall (g : grid N) before stop ub g' l' s' u', fim_pass E goal g before after stop ub = Ok (g', l', s', u') ->
  forall goal2 stop2 ub2, exists s2 u2, fim_pass E goal2 g before after stop2 ub2 = Ok (g', l', s2, u2).
Proof.
  induction after as [|x l IH]; intros g before stop ub g' l' s' u' H goal2 stop2 ub2; cbn [fim_pass] in *; [inversion H; subst; eauto|].
  apply bind_ok in H. destruct H as [p [Hp H]]. apply bind_ok in H. destruct H as [q [Hq H]]. apply bind_ok in H. destruct H as [g1 [H1 H]]. rewrite Hp; cbn [bind]; rewrite Hq; cbn [bind]; rewrite H1; cbn [bind].
  destruct (nleb _ _); [|exact (IH _ _ _ _ _ _ _ _ H _ _ _)].
  apply bind_ok in H. destruct H as [ns [Hns H]]. apply bind_ok in H. destruct H as [[g2 ins] [H2 H]]. apply bind_ok in H. destruct H as [g3 [H3 H]]. rewrite Hns. cbn [bind]. rewrite H2. cbn [bind]. rewrite H3. cbn [bind].
  exact (IH _ _ _ _ _ _ _ _ H _ _ _).
Qed.
Lemma fim_loop_any E goal : forall fuel (g : grid N) l stop ub g' l' u', fim_loop fuel E goal g l stop ub = Ok (g', l', u') -> forall ub2, exists u2, fim_loop fuel E goal g l stop ub2 = Ok (g', l', u2).
Proof.
  induction fuel as [|k IH]; intros g l stop ub g' l' u' H ub2; cbn [fim_loop] in *; destruct stop; try (inversion H; subst; eauto; fail); (destruct l as [|x l]; [inversion H; subst; eauto|]); [discriminate|].
  apply bind_ok in H. destruct H as [[[[ga la] sa] ua] [H1 H]].
  assert (K : exists u2, fim_pass E goal g [] (x :: l) false ub2 = Ok (ga, la, sa, u2)).
  { clear -H1. revert H1. generalize (x :: l) as m, (@nil Z) as b, false as st. intros m. revert g ub ub2. induction m as [|y m IH]; intros g ub ub2 b st H; cbn [fim_pass] in *; [inversion H; subst; eauto|].
    apply bind_ok in H. destruct H as [p [Hp H]]. apply bind_ok in H. destruct H as [q [Hq H]]. apply bind_ok in H. destruct H as [g1 [H1 H]]. rewrite Hp; cbn [bind]; rewrite Hq; cbn [bind]; rewrite H1; cbn [bind].
    destruct (nleb _ _); [|exact (IH _ _ _ _ _ H)].
    apply bind_ok in H. destruct H as [ns [Hns H]]. apply bind_ok in H. destruct H as [[g2 ins] [H2 H]]. apply bind_ok in H. destruct H as [g3 [H3 H]]. rewrite Hns. cbn [bind]. rewrite H2. cbn [bind]. rewrite H3. cbn [bind].
    exact (IH _ _ _ _ _ H). }
  destruct K as [u2 ->]. cbn [bind]. exact (IH _ _ _ _ _ _ _ H u2).
Qed.

(** the answers of the loop from a grid and a list *)
Definition fim_ends E (g : grid N) (l : list Z) (g2 : grid N) : Prop := exists f l2 u, fim_loop f E noGoal g l false false = Ok (g2, l2, u).

Lemma fim_step_ends E (g : grid N) l g' l' g2 : small g -> l <> [] -> (forall goal2 stop2 ub2, exists s2 u2, fim_pass E goal2 g [] l stop2 ub2 = Ok (g', l', s2, u2)) -> (fim_ends E g' l' g2 <-> fim_ends E g l g2).
Proof.
  intros Hsm Hl Hp. destruct (Hp noGoal false false) as [s2 [u2 H2]]. destruct (fim_pass_no_goal _ _ _ _ _ _ Hsm H2) as [_ Es]. cbn [fst snd] in Es. subst s2.
  split.
  - intros [f [l2 [u H]]]. exists (S f). cbn [fim_loop]. destruct l as [|x l]; [contradiction|]. rewrite H2. cbn [bind]. destruct (fim_loop_any _ _ _ _ _ _ _ _ _ _ H u2) as [u3 H3]. eauto.
  - intros [f [l2 [u H]]]. destruct l as [|x l]; [contradiction|]. destruct f as [|f]; [discriminate|]. cbn [fim_loop] in H. rewrite H2 in H. cbn [bind] in H. destruct (fim_loop_any _ _ _ _ _ _ _ _ _ _ H false) as [u3 H3]. exists f. eauto.
Qed.
Lemma fim_goal_ends E goal g2 : forall fuel (g : grid N) l stop ub g1 l1 u1, small g -> fim_loop fuel E goal g l stop ub = Ok (g1, l1, u1) -> (fim_ends E g1 l1 g2 <-> fim_ends E g l g2).
Proof.
  induction fuel as [|k IH]; intros g l stop ub g1 l1 u1 Hsm H; cbn [fim_loop] in *; destruct stop; try (inversion H; subst; reflexivity); (destruct l as [|x l]; [inversion H; subst; reflexivity|]); [discriminate|].
  apply bind_ok in H. destruct H as [[[[ga la] sa] ua] [H1 H]]. pose proof (fim_pass_any _ _ _ _ _ _ _ _ _ _ _ H1) as K.
  assert (Hsa : small ga). { destruct (K noGoal false false) as [s2 [u2 H2]]. exact (proj1 (fim_pass_no_goal _ _ _ _ _ _ Hsm H2)). }
  rewrite (IH _ _ _ _ _ _ _ Hsa H). apply fim_step_ends; auto. discriminate.
Qed.

Lemma fim_seed_same dims init (g : grid N) l : dims2 dims -> 2 * box_size dims <= 4294967296 -> grid_ok dims g -> around dims seen init g -> sources_done init g -> foldM fim_init1 init (mkFim g l) = Ok (mkFim g l).
Proof.
  intros H2 Hlt HG HA HS. assert (Hpr : proper dims) by (apply dims2_proper'; exact H2).
  assert (K : forall k, (forall i, In i k -> In i init) -> foldM fim_init1 k (mkFim g l) = Ok (mkFim g l)); [|apply K; auto].
  induction k as [|i k IH]; intros Hk; cbn [foldM]; [reflexivity|]. pose proof (Hk i (or_introl eq_refl)) as Hi. destruct (HS i Hi) as [c [Hc [Ev Es]]].
  assert (Hir : 0 <= i < box_size dims) by (destruct HG as [_ <-]; exact (getCell_range _ _ _ Hc)).
  enough (E : fim_init1 (mkFim g l) i = Ok (mkFim g l)). { rewrite E. cbn [bind]. apply IH. intros x Hx. apply Hk. right; exact Hx. }
  unfold fim_init1. cbn [fi_g fi_l]. rewrite (set_same g i n0); [|unfold time_is, getArrivalTime; rewrite Hc; cbn; congruence]. cbn [bind]. rewrite (st_same g i c FROZEN Hc Es). cbn [bind].
  rewrite (proj1 HG), getNeighbors_eq; auto. cbn [bind].
  match goal with |- foldM ?f _ ?s0 = _ => assert (K : forall ns, (forall j, In j ns -> adjacent dims i j) -> foldM f ns s0 = Ok s0) end.
  { induction ns as [|j ns IHn]; intros Hj; cbn [foldM]; [reflexivity|]. pose proof (Hj j (or_introl eq_refl)) as Haj.
    destruct (getCell_in dims g j HG (proj2 (adjacent_range _ _ _ Haj))) as [cj Hcj]. cbn [fi_g]. rewrite Hcj. cbn [bind]. pose proof (HA i j Hi Haj cj Hcj) as Hs. unfold seen in Hs.
    replace (fmstate_eqb (c_state cj) OPEN && negb (isOccupied cj)) with false by (destruct (fmstate_eqb (c_state cj) OPEN), (isOccupied cj); cbn in *; congruence).
    cbn [bind]. apply IHn. intros x Hx. apply Hj. right; exact Hx. }
  apply K. intros j Hj. apply nbrs_spec in Hj; auto.
Qed.

Theorem C89_fim : forall E : N, continues (fim_api E) sources_done.
Proof.
  intros E m init goal f1 o g o1 g1 Hm Hp He Hc Ha g2. cbn in He. inversion He; subst; clear He.
  destruct (goal_setup m init goal Hm Hp) as [dims [Hs [Hg [_ [Hi Hset]]]]]. pose proof Hs as [H2 Hlt].
  cbn in Hc. unfold fim_compute in Hc. apply bind_ok in Hc. destruct Hc as [[s1 ga] [H1 Hc]]. destruct (Hset _ H1) as [K1 K2]. inversion K1; subst; clear K1 H1 Hset.
  cbn [goal_of sv_goal sv_init bind io_list io_E fim_setPoints fim_new] in Hc. apply bind_ok in Hc. destruct Hc as [[[gx l] ub] [Hrun Hc]]. inversion Hc; subst; clear Hc.
  destruct (fim_run_marks dims H2 Hlt init Hi _ _ _ _ _ _ Hg Hrun) as [G A]. cbn [fst] in *.
  unfold fim_resume in Hrun. apply bind_ok in Hrun. destruct Hrun as [s0 [H0 Hrun]].
  assert (Hs0 : small (fi_g s0)).
  { apply (ok_small dims); [exact Hs|]. refine (foldM_inv_partial (fun s => grid_ok dims (fi_g s)) _ _ _ _ (Hg : grid_ok dims (fi_g (mkFim _ []))) _ H0).
    intros a x b Hx Ga Hb. exact (proj1 (fim_init1_marks dims H2 Hlt init Hi _ _ _ Hx Ga Hb)). }
  transitivity (fim_ends E g1 l g2); [|rewrite (fim_goal_ends _ _ g2 _ _ _ _ _ _ _ _ Hs0 Hrun)].
  - cbn [a_comp a_pts fim_api]. unfold fim_compute, fim_setPoints, ensure_setup. cbn [io_s io_list io_E setInitialAndGoalPoints sv_setup bind goal_of sv_goal sv_init]. unfold fim_resume. rewrite (fim_seed_same dims init g1 l H2 Hlt G A Ha). cbn [bind fi_g fi_l]. split.
    + intros [f [o2 H]]. apply bind_ok in H. destruct H as [[[gy ly] uy] [Hr H]]. inversion H; subst. exists f, ly, uy. exact Hr.
    + intros [f [l2 [u Hr]]]. exists f. change (u32 (-1)) with noGoal. rewrite Hr. cbn [bind]. eauto.
  - cbn [a_comp a_pts fim_api]. unfold fim_compute, fim_setPoints, ensure_setup. cbn [io_s io_list io_E setInitialAndGoalPoints sv_setup sv_grid new_solver fim_new]. unfold setInitialAndGoalPoints. cbn [sv_grid sv_setup]. rewrite K2. cbn [bind goal_of sv_goal sv_init]. unfold fim_resume. rewrite H0. cbn [bind]. split.
    + intros [f [l2 [u Hr]]]. exists f. rewrite Hr. cbn [bind]. eauto.
    + intros [f [o2 H]]. apply bind_ok in H. destruct H as [[[gy ly] uy] [Hr H]]. inversion H; subst. exists f, ly, uy. exact Hr.
Qed.
End Cont.

(** ** FSM *)
Section FSM.
Context {N : Num}.
Variable L : NumLaws N.
Variable dims : list Z.
Hypothesis Hd2 : dims2 dims.
Hypothesis Hlt : 2 * box_size dims <= 4294967296.
Notation GO := (grid_ok dims).
Let Hpr : proper dims := dims2_proper' dims Hd2.

Definition calm_sw (s : sw_state (N := N)) : sw_state := mkSw (sw_g s) (sw_keep s) false.

Lemma visit_calm goal (s : sw_state (N := N)) i s' : GO (sw_g s) -> visit (fsm_solveForIdx goal) s i = Ok s' -> GO (sw_g s') /\ visit (fsm_solveForIdx noGoal) (calm_sw s) i = Ok (calm_sw s').
Proof.
  intros HG H. unfold visit in *. cbn [calm_sw sw_g]. apply bind_ok in H. destruct H as [c [Hc H]]. rewrite Hc. cbn [bind]. destruct (isOccupied c); [inversion H; subst; auto|].
  assert (Hi : (i =? noGoal) = false). { apply (get_small (sw_g s) i c); [|exact Hc]. apply (ok_small dims); [split; assumption|exact HG]. }
  unfold fsm_solveForIdx in *. cbn [calm_sw sw_g sw_keep sw_stop]. apply bind_ok in H. destruct H as [pv [Hpv H]]. apply bind_ok in H. destruct H as [t [Ht H]]. rewrite Hpv. cbn [bind]. rewrite Ht. cbn [bind].
  destruct (isTimeBetterThan t pv).
  - apply bind_ok in H. destruct H as [g' [Hg' H]]. inversion H; subst. rewrite Hg'. cbn [bind sw_g]. split; [exact (updCell_grid_ok _ _ _ _ _ Hg' HG)|reflexivity].
  - rewrite Hi, andb_false_r. match type of H with (if ?b then _ else _) = _ => destruct b end; inversion H; subst; auto.
Qed.
Lemma fold_calm goal l : forall (s : sw_state (N := N)) s', GO (sw_g s) -> foldM (visit (fsm_solveForIdx goal)) l s = Ok s' -> GO (sw_g s') /\ foldM (visit (fsm_solveForIdx noGoal)) l (calm_sw s) = Ok (calm_sw s').
Proof.
  induction l as [|x l IH]; intros s s' HG H; cbn [foldM] in *; [inversion H; subst; auto|]. apply bind_ok in H. destruct H as [s1 [H1 H]].
  destruct (visit_calm _ _ _ _ HG H1) as [G1 E1]. rewrite E1. cbn [bind]. exact (IH _ _ G1 H).
Qed.

(** the answers of the sweeps from a state *)
Definition fsm_ends ms (sw : Z) (incs : list Z) (s : sw_state (N := N)) (g2 : grid N) : Prop := exists f s2 n i, sweep_loop (fsm_solveForIdx noGoal) f ms sw incs s = Ok (s2, n, i) /\ sw_g s2 = g2.

Lemma fsm_goal_ends goal ms g2 : forall fuel sw incs s r, is_dir (length dims) incs -> GO (sw_g s) -> sw_keep s = true \/ (forall i, 0 <= i < box_size dims -> stable_at (sw_g s) i) ->
  sweep_loop (fsm_solveForIdx goal) fuel ms sw incs s = Ok r ->
  (fsm_ends ms (snd (fst r)) (snd r) (mkSw (sw_g (fst (fst r))) true false) g2 <-> fsm_ends ms sw incs (calm_sw s) g2).
Proof.
  induction fuel as [|k IH]; intros sw incs s r Hd HG HK H; cbn [sweep_loop] in H; destruct (sw_keep s && negb (sw_stop s) && (sw <? ms)) eqn:Ec; [discriminate| | |].
  1,3: inversion H; subst; cbn [fst snd]; unfold calm_sw; destruct (sw_keep s); [reflexivity|]; destruct HK as [HK|HK]; [discriminate|]; split.
  1,3: intros [f [s2 [n [i [Hf <-]]]]]; destruct f as [|f]; cbn [sweep_loop sw_keep sw_stop negb andb sw_g] in Hf; (destruct (sw <? ms) eqn:Es; [|inversion Hf; subst; exists 0%nat; cbn [sweep_loop sw_keep andb]; eauto]); [discriminate|];
    destruct (next_dir _ _ Hd) as [Hd' _]; rewrite (sweep_as_fold dims Hd2 Hlt _ _ (mkSw (sw_g s) false false) HG Hd'), (stable_fold L dims Hd2 Hlt) in Hf; auto; cbn [bind] in Hf.
  1,4: destruct f; cbn [sweep_loop sw_keep andb] in Hf; inversion Hf; subst; exists 0%nat; cbn [sweep_loop sw_keep andb]; eauto.
  1-4: intros x Hx; try apply HK; (eapply Permutation_in in Hx; [|apply sweep_order_perm; auto]); apply in_zseq in Hx; pose proof (box_size_pos _ Hpr); lia.
  1,2: intros [f [s2 [n [i [Hf <-]]]]]; assert (E : sw_g s2 = sw_g s) by (destruct f; cbn [sweep_loop sw_keep andb] in Hf; inversion Hf; subst; reflexivity); rewrite E;
    exists 1%nat; cbn [sweep_loop sw_keep sw_stop negb andb sw_g]; destruct (sw <? ms) eqn:Es; [|do 3 eexists; split; reflexivity];
    destruct (next_dir _ _ Hd) as [Hd' _]; rewrite (sweep_as_fold dims Hd2 Hlt _ _ (mkSw (sw_g s) false false) HG Hd'), (stable_fold L dims Hd2 Hlt); auto; [cbn [bind sweep_loop sw_keep andb]; do 3 eexists; split; reflexivity| |];
    intros x Hx; try apply HK; (eapply Permutation_in in Hx; [|apply sweep_order_perm; auto]); apply in_zseq in Hx; pose proof (box_size_pos _ Hpr); lia.
  apply bind_ok in H. destruct H as [s1 [H1 H]]. destruct (next_dir _ _ Hd) as [Hd' _]. rewrite (sweep_as_fold dims Hd2 Hlt (fsm_solveForIdx goal) (next_incs incs) (mkSw (sw_g s) false (sw_stop s)) HG Hd') in H1.
  destruct (fold_calm goal _ (mkSw (sw_g s) false (sw_stop s)) _ HG H1) as [G1 E1]. unfold calm_sw in E1 at 1. cbn [sw_g sw_keep] in E1.
  assert (HK1 : sw_keep s1 = true \/ (forall i, 0 <= i < box_size dims -> stable_at (sw_g s1) i)).
  { destruct (sw_keep s1) eqn:Ek; [left; reflexivity|right]. destruct (quiet_fold _ _ _ _ H1 Ek) as [_ [E2 Q]]. cbn [sw_g] in *. rewrite E2.
    intros i Hi. apply Q. eapply Permutation_in; [symmetry; apply sweep_order_perm; auto|]. apply in_zseq. lia. }
  rewrite (IH _ _ _ _ Hd' G1 HK1 H). apply andb_true_iff in Ec. destruct Ec as [Ec Es]. apply andb_true_iff in Ec. destruct Ec as [Ek _].
  assert (Estep : forall f, sweep_loop (fsm_solveForIdx noGoal) (S f) ms sw incs (calm_sw s) = sweep_loop (fsm_solveForIdx noGoal) f ms (sw + 1) (next_incs incs) (calm_sw s1)).
  { intros f. cbn [sweep_loop]. unfold calm_sw at 1 2 3 4. cbn [sw_keep sw_stop sw_g negb]. rewrite Ek, Es. cbn [andb]. rewrite (sweep_as_fold dims Hd2 Hlt _ _ (mkSw (sw_g s) false false) HG Hd'), E1. reflexivity. }
  split.
  - intros [f [s2 [n [i [Hf Eg]]]]]. exists (S f), s2, n, i. rewrite Estep. auto.
  - intros [f [s2 [n [i [Hf Eg]]]]]. destruct f as [|f]; [cbn [sweep_loop calm_sw sw_keep sw_stop negb] in Hf; rewrite Ek, Es in Hf; discriminate|]. rewrite Estep in Hf. exists f. eauto.
Qed.
End FSM.

Theorem C89_fsm : forall (N : Num) (L : NumLaws N) maxSweeps, continues (fsm_api (N := N) maxSweeps) sources_at_zero.
Proof.
  intros N L ms m init goal f1 o g o1 g1 Hm Hp He Hc Ha g2. cbn in He. inversion He; subst; clear He.
  destruct (goal_setup m init goal Hm Hp) as [dims [Hs [Hg [_ [Hi Hset]]]]]. pose proof Hs as [H2 Hlt].
  cbn [a_comp a_pts fsm_api] in *. unfold fsm_compute, sweep_compute in *. cbn [fsm_setPoints fsm_new so_s so_sweeps so_max so_incs so_dims setInitialAndGoalPoints sv_setup sv_grid new_solver] in *.
  apply bind_ok in Hc. destruct Hc as [[oa ga] [Hx Hc]]. unfold fsm_setup in Hx at 1. cbn [so_s so_sweeps so_max so_dims] in Hx. apply bind_ok in Hx. destruct Hx as [[s1 gb] [H0 Hx]]. destruct (Hset _ H0) as [K1 K2]. inversion K1; subst; clear K1 H0 Hset. inversion Hx; subst; clear Hx.
  cbn [goal_of sv_goal sv_init bind so_s so_sweeps so_max so_incs so_dims] in Hc.
  assert (Ed : s_dims (g_sh (clean m)) = dims). { change (g_sh (clean m)) with (g_sh (setClean (clean m) false)). destruct Hg as [-> _]. unfold mk_shape. destruct (partials 1 dims). reflexivity. }
  rewrite Ed in Hc. apply bind_ok in Hc. destruct Hc as [[[st n] incs] [Hrun Hc]]. inversion Hc; subst; clear Hc.
  unfold fsm_run in Hrun. apply bind_ok in Hrun. destruct Hrun as [g0 [Hz Hrun]].
  set (dims := s_dims (g_sh (clean m))) in *.
  assert (G0 : grid_ok dims g0). { refine (foldM_inv_partial (grid_ok _) _ _ _ _ Hg _ Hz). intros a x b _ A B. exact (updCell_grid_ok _ _ _ _ _ B A). }
  pose proof (fsm_goal_ends L dims H2 Hlt _ _ g2 _ _ _ (mkSw g0 true false) _ (C30_initial_directions _) G0 (or_introl eq_refl) Hrun) as K. cbn [fst snd] in K.
  transitivity (fsm_ends (u32 ms) n incs (mkSw (sw_g st) true false) g2); [|rewrite K].
  - unfold fsm_setPoints, setInitialAndGoalPoints. cbn [so_s so_sweeps so_max so_incs so_dims sv_setup sv_grid bind goal_of sv_goal sv_init]. unfold fsm_run. rewrite (zero_same init _ Ha). cbn [bind]. split.
    + intros [f [o2 H]]. apply bind_ok in H. destruct H as [[[sx nx] ix] [Hr H]]. inversion H; subst. exists f, sx, nx, ix. split; [exact Hr|reflexivity].
    + intros [f [s2 [nx [ix [Hr <-]]]]]. exists f. change (u32 (-1)) with noGoal. rewrite Hr. cbn [bind]. eauto.
  - unfold fsm_setPoints, setInitialAndGoalPoints, fsm_setup. cbn [so_s so_sweeps so_max so_incs so_dims sv_setup sv_grid bind goal_of sv_goal sv_init new_solver]. rewrite K2. cbn [bind goal_of sv_goal sv_init so_s so_sweeps so_max so_incs so_dims]. unfold fsm_run. rewrite Hz. cbn [bind]. fold dims.
    unfold calm_sw. cbn [sw_g sw_keep]. split.
    + intros [f [s2 [nx [ix [Hr <-]]]]]. exists f. rewrite Hr. cbn [bind]. eauto.
    + intros [f [o2 H]]. apply bind_ok in H. destruct H as [[[sx nx] ix] [Hr H]]. inversion H; subst. exists f, sx, nx, ix. split; [exact Hr|reflexivity].
Qed.

(** ** cases *)
(** with a goal first, then without: [1] same times as a run without a goal, [0] other times, [2] undefined behaviour *)
Definition c89_run (A : api F64) (m : grid F64) init goal (f : nat) : Z :=
  match a_env A (a_new A) (Some m) with
  | Ok (o, g) => match a_comp A f (a_pts A o init goal) g, a_comp A f (a_pts A o init (-1)) g with
      | Ok (o1, g1), Ok (_, g2) => match a_comp A f (a_pts A o1 init (-1)) g1 with Ok (_, g3) => if same_times g2 g3 then 1 else 0 | Fail UB => 2 | _ => 3 end
      | _, _ => 4 end
  | _ => 5 end.
(** the run with a goal really stopped early: it left another answer than the run without, and its initial points are as [also] asks *)
Definition c89_early (A : api F64) (m : grid F64) init goal (f : nat) : bool :=
  match a_env A (a_new A) (Some m) with
  | Ok (o, g) => match a_comp A f (a_pts A o init goal) g, a_comp A f (a_pts A o init (-1)) g with
      | Ok (_, g1), Ok (_, g2) => negb (same_times g1 g2) && zero_times init g1
      | _, _ => false end
  | _ => false end.
Definition c89_states (A : api F64) (m : grid F64) init goal (f : nat) : bool :=
  match a_env A (a_new A) (Some m) with
  | Ok (o, g) => match a_comp A f (a_pts A o init goal) g with
      | Ok (_, g1) => forallb (fun i => match getCell g1 i with Ok c => fmstate_eqb (c_state c) FROZEN | _ => false end) init
      | _ => false end
  | _ => false end.

(** a 5x7 serpentine *)
Definition c89_snake : grid F64 := vgrid [5;7] (n1 : F64) (map z64 [1;1;1;1;1; 0;0;0;0;1; 1;1;1;1;1; 1;0;0;0;0; 1;1;1;1;1; 0;0;0;0;1; 1;1;1;1;1]).
(** a 6x5 map with several velocities *)
Definition c89_field : grid F64 := vgrid [6;5] (n1 : F64) [z64 1; z64 1; half64; z64 1; z64 0; z64 1;   z64 2; z64 1; z64 1; z64 1; z64 1; half64;  z64 1; z64 0; z64 1;z64 2; z64 1; z64 1; z64 1;  z64 1;z64 1; half64; z64 1; z64 0; z64 1; z64 2; z64 1; z64 1; z64 1; z64 1].

Example C89_case : good_map c89_snake /\ points_in c89_snake [0; 4] 2 /\ good_map c89_field /\ points_in c89_field [0] 1 /\
  c89_early (fim_api (comp_margin : F64)) c89_field [0] 7 900 = true /\ c89_states (fim_api (comp_margin : F64)) c89_field [0] 7 900 = true /\ c89_run (fim_api (comp_margin : F64)) c89_field [0] 7 900 = 1 /\
  c89_early (fsm_api 1000) c89_snake [0; 4] 2 900 = true /\ c89_run (fsm_api 1000) c89_snake [0; 4] 2 900 = 1.
Proof.
  split; [apply vgrid_good; [split; [repeat (constructor; [lia|]); constructor|cbn; lia]|reflexivity]|].
  split. { intros dims [_ Hd]. rewrite <- Hd. split; [|right; cbn; lia]. intros x [<-|[<-|[]]]; cbn; lia. }
  split; [apply vgrid_good; [split; [repeat (constructor; [lia|]); constructor|cbn; lia]|reflexivity]|].
  split. { intros dims [_ Hd]. rewrite <- Hd. split; [|right; cbn; lia]. intros x [<-|[]]; cbn; lia. }
  repeat split; vm_compute; reflexivity.
Qed.

(** The other solvers do not continue: LSM keeps no list of the cells still to be
    visited across the call (freeze_all), GMM restarts its threshold, and UFMM pushes the
    initial points below the band (a negative number converted to unsigned).  So [continues]
    does not hold of them: these runs are counterexamples. *)
Example C89_not_lsm : c89_run (lsm_api 1000) c89_snake [0; 4] 2 900 = 0.
Proof. vm_compute. reflexivity. Qed.
Example C89_not_gmm : c89_run (gmm_api half64) c89_field [0] 1 900 = 0.
Proof. vm_compute. reflexivity. Qed.
Example C89_not_ufmm : c89_run (ufmm_api 1000 (nofZ 20)) c89_field [0] 1 900 = 2.
Proof. vm_compute. reflexivity. Qed.

Print Assumptions C89_fim. Print Assumptions C89_fsm.

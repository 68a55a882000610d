(** Lifecycle.v - proofs about solver objects across calls (C25, C26, C38, C39). *)
From Coq Require Import Permutation.
From Verif Require Import Base BaseFacts Num NumLaws Grid Spec Obs GridFacts GridUpd Eikonal FMMModel HeapLaws SweepModel QueueModel
  UntidyModel Frame SolverModel.
Open Scope Z_scope.

Lemma nth_error_ext' {A} (l l' : list A) : (forall n, nth_error l n = nth_error l' n) -> l = l'.
Proof.
  revert l'; induction l as [|a l IH]; intros [|b l'] H; auto; try (specialize (H O); discriminate).
  pose proof (H O) as H0. injection H0 as ->. f_equal. apply IH. intros n. exact (H (S n)).
Qed.

Section L.
Context {N : Num}.
Implicit Types g : grid N.

(** every cell as a new or cleaned cell: infinite time, OPEN, no bucket, no heuristic *)
Definition default_cells g : Prop :=
  forall i c, getCell g i = Ok c -> c_val c = ninf /\ c_state c = OPEN /\ c_bucket c = 0 /\ c_h c = n0.

(** the clean flag tells the truth *)
Definition honest g : Prop := g_clean g = true -> default_cells g.

Lemma default_cells_map g : default_cells g <-> map setDefault (g_cells g) = g_cells g.
Proof.
  split.
  - intros H. rewrite <- (map_id (g_cells g)) at 2. apply map_ext_in. intros c Hc.
    apply In_nth_error in Hc. destruct Hc as [n Hn].
    destruct (H (Z.of_nat n) c) as [A [B [C D]]].
    { unfold getCell, vget. destruct (Z.leb_spec 0 (Z.of_nat n)); [|lia]. rewrite Nat2Z.id, Hn. reflexivity. }
    destruct c as [v o s b h k]; cbn in *. unfold setDefault. cbn. congruence.
  - intros H i c Hc. unfold getCell in Hc. apply vget_ok in Hc. destruct Hc as [_ Hc]. rewrite <- H in Hc.
    rewrite nth_error_map in Hc. destruct (nth_error (g_cells g) (Z.to_nat i)) as [c0|]; [|discriminate]. injection Hc as <-. auto.
Qed.

Lemma clean_flag g : g_clean (clean g) = true.
Proof. unfold clean. destruct (g_clean g) eqn:E; [exact E|reflexivity]. Qed.

Lemma clean_default g : honest g -> default_cells (clean g).
Proof.
  intros H. unfold clean. destruct (g_clean g) eqn:E; cbn [negb]; [exact (H E)|].
  apply default_cells_map. cbn [g_cells]. rewrite map_map. apply map_ext. reflexivity.
Qed.

Lemma clean_clean g : clean (clean g) = clean g.
Proof. unfold clean at 1. rewrite clean_flag. reflexivity. Qed.

Lemma frame_setDefault I g g' : frame I g g' -> map setDefault (g_cells g') = map setDefault (g_cells g).
Proof.
  intros [_ [_ [_ [_ [Hl H]]]]]. apply nth_error_ext'. intros n. rewrite !nth_error_map.
  destruct (nth_error (g_cells g) n) as [c|] eqn:E.
  - destruct (H (Z.of_nat n) c) as [c' [H1 [H2 [H3 _]]]].
    { unfold getCell, vget. destruct (Z.leb_spec 0 (Z.of_nat n)); [|lia]. rewrite Nat2Z.id, E. reflexivity. }
    unfold getCell in H1. apply vget_ok in H1. destruct H1 as [_ H1]. rewrite Nat2Z.id in H1. rewrite H1. cbn. f_equal.
    unfold setDefault. congruence.
  - apply nth_error_None in E. rewrite (proj2 (nth_error_None _ _)) by lia. reflexivity.
Qed.

(** cleaning after a run restores the grid of before the run *)
Lemma clean_after I g g' : g_clean g = true -> default_cells g -> frame I (setClean g false) g' -> clean g' = g.
Proof.
  intros Hc Hd HF. pose proof HF as [F1 [F2 [F3 [F4 _]]]]. cbn in F1, F2, F3, F4.
  unfold clean. rewrite F4. cbn [negb]. rewrite (frame_setDefault _ _ _ HF). cbn [setClean g_cells].
  apply default_cells_map in Hd. rewrite Hd. destruct g; cbn in *; congruence.
Qed.

Lemma solver_setup_ok s g s' g' : solver_setup s g = Ok (s', g') ->
  s' = mkSolver (sv_grid s) true (sv_init s) (sv_goal s) /\ g' = setClean g false /\ sv_grid s = GSet /\ g_clean g = true.
Proof.
  unfold solver_setup. intros H. invb. destruct (Z.eqb_spec x 0) as [->|Hx]; [|discriminate]. cbn [negb] in H. invb.
  split; [reflexivity|]. split; [reflexivity|]. unfold sanityChecks in E. destruct (sv_grid s); try discriminate. split; [reflexivity|].
  destruct (g_clean g); [reflexivity|discriminate].
Qed.

(** setup on the same grid does not depend on the setup flag *)
Lemma solver_setup_again s g s' g' b : solver_setup s g = Ok (s', g') ->
  solver_setup (mkSolver (sv_grid s) b (sv_init s) (sv_goal s)) g = Ok (s', g').
Proof. intros H. destruct (solver_setup_ok _ _ _ _ H) as [-> [-> _]]. unfold solver_setup in *. exact H. Qed.

(** *** FMM *)
Section FMM.
Variable HO : HeapOps N.

Lemma fmm_setup_cases (o o' : fmm_obj HO) g g' : fmm_setup HO o g = Ok (o', g') ->
  exists s1 k, solver_setup (fo_s o) g = Ok (s1, g') /\ goal_of s1 = Ok k /\
  ((fo_strat o = NOHEUR /\ o' = mkFmm s1 (fo_band o) NOHEUR (fo_dist o) (fo_pre o) (fo_coord o)) \/
   (fo_strat o <> NOHEUR /\ s32 k = -1 /\ o' = mkFmm s1 (fo_band o) NOHEUR (fo_dist o) (fo_pre o) (fo_coord o)) \/
   (fo_strat o <> NOHEUR /\ s32 k <> -1 /\ exists gc d, idx2coord (g_sh g) k = Ok gc /\
      (if fo_pre o then d = fo_dist o else precomputeDistances (g_sh g) = Ok d) /\
      o' = mkFmm s1 (fo_band o) (fo_strat o) d true gc)).
Proof.
  unfold fmm_setup. intros H. apply bind_ok in H. destruct H as [[s1 g1] [H1 H]].
  pose proof (solver_setup_ok _ _ _ _ H1) as [_ [Eg1 _]].
  apply bind_ok in H. destruct H as [o1 [H2 H]]. apply bind_ok in H. destruct H as [k [Hk H]].
  exists s1, k. unfold fmm_setHeuristics, fmm_with_solver in H2. cbn [fo_s fo_pre fo_band fo_dist fo_coord fo_strat] in H2.
  destruct (fo_strat o) eqn:Est.
  - injection H2 as <-. cbn [fo_strat] in H. injection H as <- <-. split; [exact H1|]. split; [exact Hk|]. left. auto.
  - rewrite Hk in H2. cbn [bind] in H2. destruct (Z.eqb_spec (s32 k) (-1)) as [E|E]; cbn [negb] in H2.
    + injection H2 as <-. cbn [fo_strat fo_s fo_band fo_dist fo_pre fo_coord] in H. injection H as <- <-.
      split; [exact H1|]. split; [exact Hk|]. right; left. split; [discriminate|auto].
    + apply bind_ok in H2. destruct H2 as [gc [Hgc H2]]. rewrite Eg1 in Hgc. cbn in Hgc.
      assert (Hd : exists d, (if fo_pre o then d = fo_dist o else precomputeDistances (g_sh g) = Ok d) /\ o1 = mkFmm s1 (fo_band o) TIME d true gc).
      { destruct (fo_pre o); [injection H2 as <-; eauto|]. apply bind_ok in H2. destruct H2 as [d [Hd H2]]. rewrite Eg1 in Hd. injection H2 as <-. eauto. }
      destruct Hd as [d [Hd ->]]. cbn [fo_strat fo_s fo_band fo_dist fo_pre fo_coord] in H. injection H as <- <-.
      split; [exact H1|]. split; [exact Hk|]. right; right. split; [discriminate|]. split; [exact E|]. exists gc, d. auto.
  - rewrite Hk in H2. cbn [bind] in H2. destruct (Z.eqb_spec (s32 k) (-1)) as [E|E]; cbn [negb] in H2.
    + injection H2 as <-. cbn [fo_strat fo_s fo_band fo_dist fo_pre fo_coord] in H. injection H as <- <-.
      split; [exact H1|]. split; [exact Hk|]. right; left. split; [discriminate|auto].
    + apply bind_ok in H2. destruct H2 as [gc [Hgc H2]]. rewrite Eg1 in Hgc. cbn in Hgc.
      assert (Hd : exists d, (if fo_pre o then d = fo_dist o else precomputeDistances (g_sh g) = Ok d) /\ o1 = mkFmm s1 (fo_band o) DISTANCE d true gc).
      { destruct (fo_pre o); [injection H2 as <-; eauto|]. apply bind_ok in H2. destruct H2 as [d [Hd H2]]. rewrite Eg1 in Hd. injection H2 as <-. eauto. }
      destruct Hd as [d [Hd ->]]. cbn [fo_strat fo_s fo_band fo_dist fo_pre fo_coord] in H. injection H as <- <-.
      split; [exact H1|]. split; [exact Hk|]. right; right. split; [discriminate|]. split; [exact E|]. exists gc, d. auto.
Qed.

(** a second setup on the same grid reproduces the object of the first *)
Lemma fmm_setup_again (o o' : fmm_obj HO) g g' b h : fmm_setup HO o g = Ok (o', g') ->
  fmm_setup HO (mkFmm (mkSolver (sv_grid (fo_s o')) b (sv_init (fo_s o')) (sv_goal (fo_s o'))) h (fo_strat o') (fo_dist o') (fo_pre o') (fo_coord o')) g
  = Ok (mkFmm (fo_s o') h (fo_strat o') (fo_dist o') (fo_pre o') (fo_coord o'), g').
Proof.
  intros H. destruct (fmm_setup_cases _ _ _ _ H) as [s1 [k [H1 [Hk Hc]]]].
  pose proof (solver_setup_ok _ _ _ _ H1) as [Es1 [Eg1 _]].
  assert (ES : forall b, solver_setup (mkSolver (sv_grid s1) b (sv_init s1) (sv_goal s1)) g = Ok (s1, g')).
  { intros b'. rewrite Es1. cbn [sv_grid sv_init sv_goal]. rewrite <- Es1. apply solver_setup_again. exact H1. }
  unfold fmm_setup.
  destruct Hc as [[Hs ->]|[[Hs [Hkk ->]]|[Hs [Hkk [gc [d [Hg [Hd ->]]]]]]]]; cbn [fo_s fo_strat fo_dist fo_pre fo_coord];
    rewrite ES; cbn [bind]; unfold fmm_setHeuristics, fmm_with_solver; cbn [fo_s fo_strat fo_dist fo_pre fo_coord fo_band].
  - cbn [bind fo_strat]. rewrite Hk. reflexivity.
  - cbn [bind fo_strat]. rewrite Hk. reflexivity.
  - assert (Hg' : idx2coord (g_sh g') k = Ok gc) by (rewrite Eg1; exact Hg).
    destruct (fo_strat o) eqn:Est; [congruence| |]; rewrite Hk; cbn [bind];
      (destruct (Z.eqb_spec (s32 k) (-1)) as [|_]; [contradiction|]); cbn [negb]; rewrite Hg'; reflexivity.
Qed.

Theorem fmm_reset_compute (o0 o1 : fmm_obj HO) g0 g1 fuel :
  g_clean g0 = true -> default_cells g0 -> sv_setup (fo_s o0) = false -> fo_band o0 = hempty HO ->
  fmm_compute HO fuel o0 g0 = Ok (o1, g1) ->
  exists o2, fmm_reset HO o1 g1 = Ok (o2, g0) /\ fmm_compute HO fuel o2 g0 = Ok (o1, g1).
Proof.
  intros Hcl Hd Hs Hb H. unfold fmm_compute in H. rewrite Hs in H. apply bind_ok in H. destruct H as [[oa ga] [Ha H]].
  destruct (fmm_setup_cases _ _ _ _ Ha) as [s1 [k [H1 [Hk Hc]]]].
  pose proof (solver_setup_ok _ _ _ _ H1) as [Es1 [Eg1 [Egr _]]].
  assert (Eoa : fo_s oa = s1 /\ fo_band oa = hempty HO).
  { rewrite <- Hb. destruct Hc as [[_ ->]|[[_ [_ ->]]|[_ [_ [gc [d [_ [_ ->]]]]]]]]; cbn; auto. }
  destruct Eoa as [Eoa Eband]. rewrite Eoa, Hk in H. cbn [bind] in H. apply bind_ok in H. destruct H as [[st log] [Hr H]].
  injection H as <- <-.
  pose proof (fmm_run_frame (fun i => In i (sv_init s1)) HO _ _ _ _ _ _ _ _ (fun i Hi => Hi) Hr) as HF. rewrite Eg1 in HF.
  unfold fmm_reset, solver_reset. cbn [fo_s]. assert (Eg : sv_grid s1 = GSet) by (rewrite Es1; exact Egr). rewrite ?Eoa, Eg. cbn [bind].
  rewrite (clean_after _ _ _ Hcl Hd HF). eexists. split; [reflexivity|].
  cbn [fo_s fo_strat fo_dist fo_pre fo_coord]. unfold fmm_compute. cbn [fo_s sv_setup].
  pose proof (fmm_setup_again _ _ _ _ false (hempty HO) Ha) as HA. rewrite Eoa, Eg in HA.
  rewrite HA. cbn [bind fo_s]. rewrite Hk. cbn [bind fo_strat fo_dist fo_pre fo_coord fo_band].
  rewrite <- Eband, Hr. cbn [bind]. reflexivity.
Qed.
End FMM.

(** *** FSM *)
Lemma freeze_prefix g n : (n <= length (g_cells g))%nat ->
  foldM (fun g i => setState g i FROZEN) (zseq n) g =
  Ok (with_cells g (map (fun c => with_state c FROZEN) (firstn n (g_cells g)) ++ skipn n (g_cells g))).
Proof.
  induction n as [|n IH]; intros Hn.
  - cbn. destruct g; reflexivity.
  - rewrite zseq_S, foldM_app, IH by lia. cbn [bind foldM].
    destruct (nth_error (g_cells g) n) as [c|] eqn:E; [|apply nth_error_None in E; lia].
    unfold setState, updCell, getCell, vget. cbn [with_cells g_cells].
    destruct (Z.leb_spec 0 (Z.of_nat n)); [|lia]. rewrite Nat2Z.id.
    assert (Hl : length (map (fun c => with_state c FROZEN) (firstn n (g_cells g))) = n) by (rewrite map_length, firstn_length; lia).
    assert (Es : skipn n (g_cells g) = c :: skipn (S n) (g_cells g)).
    { clear - E. revert n E. induction (g_cells g) as [|a l IH]; intros [|n] E; cbn in *; try discriminate; [congruence|]. apply IH. exact E. }
    rewrite nth_error_app2, Hl, Nat.sub_diag by lia. rewrite Es at 1. cbn [nth_error hd_error bind].
    f_equal. unfold with_cells. cbn [g_sh g_leaf g_clean g_obs]. f_equal.
    assert (Ef : firstn (S n) (g_cells g) = firstn n (g_cells g) ++ [c]).
    { clear - E. revert n E. induction (g_cells g) as [|a l IH]; intros [|n] E; cbn in *; try discriminate; [congruence|]. f_equal. apply IH. exact E. }
    rewrite Ef, map_app, Es, <- app_assoc. cbn [map app].
    assert (Hgo : forall (a : list (cell N)) x b y, lset (a ++ x :: b) (length a) y = a ++ y :: b)
      by (induction a as [|? a IHa]; intros; cbn; [reflexivity|rewrite IHa; reflexivity]).
    pose proof (Hgo _ c (skipn (S n) (g_cells g)) (with_state c FROZEN) : lset (map (fun c => with_state c FROZEN) (firstn n (g_cells g)) ++ _) _ _ = _) as K.
    rewrite Hl in K. exact K.
Qed.

Definition frozen_copy g := with_cells g (map (fun c => with_state c FROZEN) (g_cells g)).

Lemma freeze_all_eq dims g : proper dims -> box_size dims < 4294967296 -> grid_ok dims g -> freeze_all g = Ok (frozen_copy g).
Proof.
  intros Hp Hlt [Hs Hl]. unfold freeze_all, gsize. rewrite Hs, mk_shape_eq by (auto; lia). cbn [s_n].
  rewrite freeze_prefix by lia. rewrite <- Hl, Nat2Z.id, firstn_all, skipn_all, app_nil_r. reflexivity.
Qed.

Lemma frozen_twice g : frozen_copy (setClean (frozen_copy g) false) = setClean (frozen_copy g) false.
Proof.
  unfold frozen_copy, setClean, with_cells. cbn [g_sh g_leaf g_cells g_clean g_obs]. rewrite map_map. f_equal.
Qed.

Theorem fsm_reset_compute (o0 o1 : fsm_obj) g0 g1 fuel :
  g_clean g0 = true -> default_cells g0 -> sv_setup (so_s o0) = false -> so_sweeps o0 = 0 ->
  fsm_compute fuel o0 g0 = Ok (o1, g1) ->
  exists o2, fsm_reset o1 g1 = Ok (o2, g0) /\ fsm_compute fuel o2 g0 = Ok (o1, g1).
Proof.
  intros Hcl Hd Hs Hsw H. unfold fsm_compute, sweep_compute in H. rewrite Hs in H. apply bind_ok in H. destruct H as [[oa ga] [Ha H]].
  unfold fsm_setup in Ha. apply bind_ok in Ha. destruct Ha as [[s1 gb] [H1 Ha]]. injection Ha as <- <-.
  cbn [so_s so_max so_sweeps so_incs so_dims] in H. apply bind_ok in H. destruct H as [k [Hk H]].
  apply bind_ok in H. destruct H as [[[st sw] incs] [Hr H]]. injection H as <- <-.
  pose proof (solver_setup_ok _ _ _ _ H1) as [Es1 [Eg1 [Egr _]]]. assert (Eg : sv_grid s1 = GSet) by (rewrite Es1; exact Egr).
  pose proof (fsm_run_frame (fun i => In i (sv_init s1)) _ _ _ _ _ _ _ _ (fun i Hi => Hi) Hr) as HF. rewrite Eg1 in HF. cbn [fst] in HF.
  unfold fsm_reset, solver_reset. cbn [so_s]. rewrite Eg. cbn [bind]. rewrite (clean_after _ _ _ Hcl Hd HF).
  eexists. split; [reflexivity|]. cbn [so_max so_dims]. unfold fsm_compute, sweep_compute, fsm_setup. cbn [so_s sv_setup so_sweeps so_max so_incs so_dims].
  pose proof (solver_setup_again _ _ _ _ false H1) as HA. rewrite <- Eg, Es1. cbn [sv_grid sv_init sv_goal]. rewrite HA. cbn [bind so_s so_max so_sweeps so_incs so_dims].
  rewrite Hk. cbn [bind]. rewrite <- Hsw, Hr. cbn [bind]. rewrite Es1. reflexivity.
Qed.

Lemma bind_ext {A B} (m : res A) (f h : A -> res B) : (forall a, f a = h a) -> bind m f = bind m h.
Proof. intros H. destruct m; cbn; auto. Qed.

Lemma sanityChecks_frozen s g : sanityChecks s (frozen_copy g) = sanityChecks s g.
Proof.
  assert (Hb : forall i, (c <- getCell (frozen_copy g) i ;; Ok (isOccupied c)) = (c <- getCell g i ;; Ok (isOccupied c))).
  { intros i. unfold getCell, vget, frozen_copy, with_cells. cbn [g_cells]. destruct (0 <=? i); [|reflexivity].
    rewrite nth_error_map. destruct (nth_error (g_cells g) (Z.to_nat i)); reflexivity. }
  unfold sanityChecks. destruct (sv_grid s); try reflexivity. change (g_clean (frozen_copy g)) with (g_clean g).
  destruct (negb (g_clean g)); [reflexivity|]. destruct (sv_init s) as [|i0 more]; [reflexivity|].
  destruct more; rewrite ?Hb; apply bind_ext; intros []; try reflexivity; apply bind_ext; intros k; rewrite Hb; reflexivity.
Qed.

(** LSM: reset leaves every cell FROZEN, but the next LSM run freezes them anyway *)
Theorem lsm_reset_compute dims (o0 o1 : fsm_obj) g0 g1 fuel :
  proper dims -> box_size dims < 4294967296 -> grid_ok dims g0 ->
  g_clean g0 = true -> default_cells g0 -> sv_setup (so_s o0) = false -> so_sweeps o0 = 0 ->
  lsm_compute fuel o0 g0 = Ok (o1, g1) ->
  exists o2, lsm_reset o1 g1 = Ok (o2, frozen_copy g0) /\ lsm_compute fuel o2 (frozen_copy g0) = Ok (o1, g1).
Proof.
  intros Hp Hlt Hgo Hcl Hd Hs Hsw H. unfold lsm_compute, sweep_compute in H. rewrite Hs in H. apply bind_ok in H. destruct H as [[oa ga] [Ha H]].
  unfold fsm_setup in Ha. apply bind_ok in Ha. destruct Ha as [[s1 gb] [H1 Ha]]. injection Ha as <- <-.
  cbn [so_s so_max so_sweeps so_incs so_dims] in H. apply bind_ok in H. destruct H as [k [Hk H]].
  apply bind_ok in H. destruct H as [[[st sw] incs] [Hr H]]. injection H as <- <-.
  pose proof (solver_setup_ok _ _ _ _ H1) as [Es1 [Eg1 [Egr _]]]. assert (Eg : sv_grid s1 = GSet) by (rewrite Es1; exact Egr).
  pose proof (lsm_run_frame (fun i => In i (sv_init s1)) _ _ _ _ _ _ _ _ (fun i Hi => Hi) Hr) as HF. rewrite Eg1 in HF. cbn [fst] in HF.
  unfold lsm_reset, fsm_reset, solver_reset. cbn [so_s]. rewrite Eg. cbn [bind]. rewrite (clean_after _ _ _ Hcl Hd HF).
  rewrite (freeze_all_eq dims g0 Hp Hlt Hgo). cbn [bind].
  eexists. split; [reflexivity|]. cbn [so_max so_dims]. unfold lsm_compute, sweep_compute, fsm_setup. cbn [so_s sv_setup so_sweeps so_max so_incs so_dims].
  pose proof (solver_setup_again _ _ _ _ false H1) as HA. rewrite <- Eg, Es1. cbn [sv_grid sv_init sv_goal].
  unfold solver_setup in HA |- *. rewrite sanityChecks_frozen. apply bind_ok in HA. destruct HA as [err [He HA]]. rewrite He. cbn [bind].
  destruct (negb (err =? 0)); [discriminate|]. cbn [sv_grid sv_init sv_goal] in HA. injection HA as HAs HAg. cbn [bind sv_grid sv_init sv_goal so_s so_max so_sweeps so_incs so_dims].
  rewrite HAs, Hk. cbn [bind].
  assert (Erun : lsm_run fuel (so_max o0) k (sv_init s1) 0 (init_incs (length (so_dims o0))) (setClean (frozen_copy g0) false)
               = lsm_run fuel (so_max o0) k (sv_init s1) (so_sweeps o0) (init_incs (length (so_dims o0))) gb).
  { rewrite Hsw. unfold lsm_run. rewrite Eg1.
    rewrite (freeze_all_eq dims (setClean g0 false) Hp Hlt) by (destruct Hgo; split; assumption).
    rewrite (freeze_all_eq dims (setClean (frozen_copy g0) false) Hp Hlt).
    2:{ destruct Hgo as [G1 G2]. split; [exact G1|]. cbn. rewrite map_length. exact G2. }
    rewrite frozen_twice. reflexivity. }
  replace (sv_init (so_s o0)) with (sv_init s1) by (rewrite Es1; reflexivity). rewrite Erun, Hr. cbn [bind]. reflexivity.
Qed.

(** *** DDQM: the run from empty queues *)
Lemma ddqm_lq_same goal : forall fuel (s : dq_state (N := N)) lq, ddqm_loop fuel goal s = (x <- ddqm_loop_lq fuel goal s lq ;; Ok (fst x)).
Proof.
  induction fuel as [|k IH]; intros s lq; cbn [ddqm_loop ddqm_loop_lq]; [reflexivity|].
  destruct (dq_lo s) as [|idx q] eqn:El.
  - match goal with |- context [increaseThreshold ?x] => set (s1 := increaseThreshold x) end.
    destruct (dq_lo s1), (dq_hi s1), (dq_stop s1); try reflexivity; apply IH.
  - destruct (dq_stop s) eqn:Es.
    + match goal with |- context [increaseThreshold ?x] => set (s1 := increaseThreshold x) end.
      destruct (dq_lo s1), (dq_hi s1), (dq_stop s1); try reflexivity; apply IH.
    + match goal with |- bind ?x _ = _ => destruct x as [s'|e]; cbn [bind]; [apply IH|reflexivity] end.
Qed.
Lemma ddqm_resume_nil fuel goal init (th step : N) g : ddqm_run fuel goal init th step g = (x <- ddqm_resume fuel goal init th step [] [] g ;; Ok (fst (fst x))).
Proof.
  unfold ddqm_run, ddqm_resume. destruct (freeze_all g) as [g0|e]; cbn [bind]; [|reflexivity].
  destruct (foldM ddqm_init1 init (g0, [])) as [[g1 q]|e]; cbn [bind]; [|reflexivity]. destruct q as [|x q]; [reflexivity|].
  rewrite (ddqm_lq_same goal fuel _ false). destruct (ddqm_loop_lq fuel goal _ false) as [[s lq]|e]; reflexivity.
Qed.
Lemma ddqm_resume_run fuel goal init (th step : N) g r q0 q1 : ddqm_resume fuel goal init th step [] [] g = Ok (r, q0, q1) -> ddqm_run fuel goal init th step g = Ok r.
Proof. intros H. rewrite ddqm_resume_nil, H. reflexivity. Qed.

(** *** FIM, GMM *)
Theorem fim_reset_compute (o0 o1 : fim_obj (N := N)) g0 g1 fuel :
  g_clean g0 = true -> default_cells g0 -> sv_setup (io_s o0) = false -> io_list o0 = [] ->
  fim_compute fuel o0 g0 = Ok (o1, g1) ->
  exists o2, fim_reset o1 g1 = Ok (o2, g0) /\ fim_compute fuel o2 g0 = Ok (o1, g1).
Proof.
  intros Hcl Hd Hs Hl H. unfold fim_compute, ensure_setup in H. rewrite Hs, Hl in H. apply bind_ok in H. destruct H as [[s1 gb] [H1 H]].
  apply bind_ok in H. destruct H as [k [Hk H]]. apply bind_ok in H. destruct H as [[[g2 l] ub] [Hr H]]. injection H as <- <-.
  pose proof (solver_setup_ok _ _ _ _ H1) as [Es1 [Eg1 [Egr _]]]. assert (Eg : sv_grid s1 = GSet) by (rewrite Es1; exact Egr).
  pose proof (fim_run_frame (fun i => In i (sv_init s1)) _ _ _ _ _ _ (fun i Hi => Hi) Hr) as HF. rewrite Eg1 in HF. cbn [fst] in HF.
  unfold fim_reset, solver_reset. cbn [io_s]. rewrite Eg. cbn [bind]. rewrite (clean_after _ _ _ Hcl Hd HF).
  eexists. split; [reflexivity|]. unfold fim_compute, ensure_setup. cbn [io_s io_list io_E sv_setup].
  pose proof (solver_setup_again _ _ _ _ false H1) as HA. rewrite <- Eg, Es1. cbn [sv_grid sv_init sv_goal]. rewrite HA. cbn [bind].
  rewrite Hk. cbn [bind]. rewrite Hr. cbn [bind]. rewrite Es1. reflexivity.
Qed.

Theorem gmm_reset_compute (o0 o1 : gmm_obj (N := N)) g0 g1 fuel :
  g_clean g0 = true -> default_cells g0 -> sv_setup (go_s o0) = false -> go_gamma o0 = [] ->
  gmm_compute fuel o0 g0 = Ok (o1, g1) ->
  exists o2, gmm_reset o1 g1 = Ok (o2, g0) /\ gmm_compute fuel o2 g0 = Ok (o1, g1).
Proof.
  intros Hcl Hd Hs Hl H. unfold gmm_compute in H. rewrite Hs in H. apply bind_ok in H. destruct H as [[oa ga] [Ha H]].
  unfold gmm_setup in Ha. apply bind_ok in Ha. destruct Ha as [[s1 gb] [H1 Ha]]. injection Ha as <- <-. cbn [go_s go_dt go_gamma] in H. rewrite Hl in H.
  apply bind_ok in H. destruct H as [k [Hk H]]. apply bind_ok in H. destruct H as [r [Hr H]]. injection H as <- <-.
  pose proof (solver_setup_ok _ _ _ _ H1) as [Es1 [Eg1 [Egr _]]]. assert (Eg : sv_grid s1 = GSet) by (rewrite Es1; exact Egr).
  pose proof (gmm_run_frame (fun i => In i (sv_init s1)) _ _ _ _ _ _ (fun i Hi => Hi) Hr) as HF. rewrite Eg1 in HF.
  unfold gmm_reset, solver_reset. cbn [go_s]. rewrite Eg. cbn [bind]. rewrite (clean_after _ _ _ Hcl Hd HF).
  eexists. split; [reflexivity|]. unfold gmm_compute, gmm_setup. cbn [go_s go_dt go_gamma sv_setup].
  pose proof (solver_setup_again _ _ _ _ false H1) as HA. rewrite <- Eg, Es1. cbn [sv_grid sv_init sv_goal]. rewrite HA. cbn [bind go_s go_dt go_gamma].
  rewrite Hk. cbn [bind].
  assert (Edt : gmm_setup_dt (gmm_setup_dt (go_dt o0) gb) gb = gmm_setup_dt (go_dt o0) gb).
  { unfold gmm_setup_dt at 1. destruct (nltb (gmm_setup_dt (go_dt o0) gb) n0) eqn:E1; [|reflexivity].
    unfold gmm_setup_dt in *. destruct (nltb (go_dt o0) n0) eqn:E2; [reflexivity|congruence]. }
  rewrite Edt, Hr. cbn [bind]. rewrite Es1. reflexivity.
Qed.

(** *** UFMM: the queue keeps its size and increment *)
Definition qsame (q q' : uq (N := N)) : Prop :=
  length (uq_tab q') = length (uq_tab q) /\ uq_size q' = uq_size q /\ uq_delta q' = uq_delta q /\ uq_inc q' = uq_inc q.
Lemma qsame_refl q : qsame q q. Proof. repeat split. Qed.
Lemma qsame_trans a b c : qsame a b -> qsame b c -> qsame a c.
Proof. intros [A [B [C D]]] [A' [B' [C' D']]]. repeat split; congruence. Qed.

Lemma uq_push_same q e t r : uq_push q e t = Ok r -> qsame q (fst r).
Proof.
  unfold uq_push. intros H. apply bind_ok in H. destruct H as [[q1 i] [H1 H]]. apply bind_ok in H. destruct H as [b [Hb H]]. injection H as <-.
  assert (E : qsame q q1).
  { destruct (uq_empty q); [injection H1 as <- <-; repeat split|]. apply bind_ok in H1. destruct H1 as [z [_ H1]]. injection H1 as <- <-. apply qsame_refl. }
  eapply qsame_trans; [exact E|]. cbn [fst]. split; [cbn; apply length_lset|repeat split].
Qed.

Lemma uq_increase_same q e b t r : uq_increase q e b t = Ok r -> qsame q (fst r).
Proof.
  unfold uq_increase. intros H. apply bind_ok in H. destruct H as [i [_ H]]. destruct (i =? u32 b); [injection H as <-; apply qsame_refl|].
  apply bind_ok in H. destruct H as [b1 [_ H]]. apply bind_ok in H. destruct H as [b2 [_ H]]. injection H as <-. cbn [fst].
  split; [cbn; rewrite !length_lset; reflexivity|repeat split].
Qed.

Lemma uq_shift_same fuel : forall q q', uq_shift fuel q = Ok q' -> qsame q q'.
Proof.
  induction fuel as [|fuel IH]; intros q q' H; cbn [uq_shift] in H; apply bind_ok in H; destruct H as [b [_ H]].
  - destruct b; [discriminate|]. injection H as <-. apply qsame_refl.
  - destruct b; [|injection H as <-; apply qsame_refl]. destruct (uq_size q =? 0); [discriminate|]. apply IH in H.
    destruct H as [A [B [C D]]]. cbn in *. repeat split; assumption.
Qed.

Lemma uq_top_same q r : uq_top q = Ok r -> qsame q (fst r).
Proof.
  unfold uq_top. intros H. apply bind_ok in H. destruct H as [q1 [H1 H]]. apply bind_ok in H. destruct H as [b [_ H]].
  destruct (rev b); [discriminate|]. injection H as <-. exact (uq_shift_same _ _ _ H1).
Qed.

Lemma uq_pop_same q q' : uq_pop q = Ok q' -> qsame q q'.
Proof.
  unfold uq_pop. intros H. destruct (uq_empty q); [injection H as <-; apply qsame_refl|].
  apply bind_ok in H. destruct H as [q1 [H1 H]]. apply bind_ok in H. destruct H as [b [_ H]]. injection H as <-.
  eapply qsame_trans; [exact (uq_shift_same _ _ _ H1)|]. split; [cbn; apply length_lset|repeat split].
Qed.

Lemma uf_push_same (s : uf_state (N := N)) i s' : uf_push s i = Ok s' -> qsame (uf_q s) (uf_q s').
Proof.
  unfold uf_push. intros H. apply bind_ok in H. destruct H as [t [_ H]]. apply bind_ok in H. destruct H as [[q b] [Hq H]].
  apply bind_ok in H. destruct H as [g [_ H]]. injection H as <-. exact (uq_push_same _ _ _ _ Hq).
Qed.

Lemma uf_increase_same (s : uf_state (N := N)) i s' : uf_increase s i = Ok s' -> qsame (uf_q s) (uf_q s').
Proof.
  unfold uf_increase. intros H. apply bind_ok in H. destruct H as [c [_ H]]. apply bind_ok in H. destruct H as [[q b] [Hq H]].
  apply bind_ok in H. destruct H as [g [_ H]]. injection H as <-. exact (uq_increase_same _ _ _ _ _ Hq).
Qed.

Lemma ufmm_neighbor_same (s : uf_state (N := N)) j s' : ufmm_neighbor s j = Ok s' -> qsame (uf_q s) (uf_q s').
Proof.
  unfold ufmm_neighbor. intros H. apply bind_ok in H. destruct H as [c [_ H]].
  destruct (fmstate_eqb (c_state c) FROZEN || isOccupied c); [injection H as <-; apply qsame_refl|].
  apply bind_ok in H. destruct H as [t [_ H]]. destruct (fmstate_eqb (c_state c) NARROW).
  - destruct (isTimeBetterThan t (c_val c)); [|injection H as <-; apply qsame_refl].
    apply bind_ok in H. destruct H as [g1 [_ H]]. apply uf_increase_same in H. exact H.
  - apply bind_ok in H. destruct H as [g1 [_ H]]. apply bind_ok in H. destruct H as [g2 [_ H]]. apply uf_push_same in H. exact H.
Qed.

Lemma ufmm_loop_same q fuel goal : forall l (s0 : uf_state (N := N)) s' log, qsame q (uf_q s0) ->
  ufmm_loop fuel goal s0 l = Ok (s', log) -> qsame q (uf_q s').
Proof.
  induction fuel as [|fuel IH]; intros l s0 s' log E0 H; cbn [ufmm_loop] in H.
  - destruct (uq_empty (uf_q s0)); [injection H as <- <-; exact E0|discriminate].
  - destruct (uq_empty (uf_q s0)); [injection H as <- <-; exact E0|]. apply bind_ok in H. destruct H as [[m s1] [H1 H]].
    assert (E1 : qsame q (uf_q s1)).
    { unfold ufmm_step in H1. apply bind_ok in H1. destruct H1 as [[q1 m'] [Hq H1]]. apply bind_ok in H1. destruct H1 as [g1 [_ H1]].
      apply bind_ok in H1. destruct H1 as [ns [_ H1]]. apply bind_ok in H1. destruct H1 as [s2 [Hf H1]]. apply bind_ok in H1. destruct H1 as [q3 [Hp H1]].
      injection H1 as <- <-. cbn [uf_q]. eapply qsame_trans; [|exact (uq_pop_same _ _ Hp)]. apply uq_top_same in Hq. cbn [fst] in Hq.
      refine (foldM_inv_partial (fun s => qsame q (uf_q s)) _ _ _ _ _ _ Hf).
      - cbn [uf_q]. eapply qsame_trans; eassumption.
      - intros s i s3 _ HP Hs. apply ufmm_neighbor_same in Hs. eapply qsame_trans; eassumption. }
    destruct (m =? goal); [injection H as <- <-; exact E1|]. eapply IH; [exact E1|exact H].
Qed.

Lemma ufmm_run_same fuel goal init g q s' log : ufmm_run fuel goal init g q = Ok (s', log) -> qsame q (uf_q s').
Proof.
  unfold ufmm_run. intros H. apply bind_ok in H. destruct H as [s0 [H0 H]].
  assert (E0 : qsame q (uf_q s0)).
  { refine (foldM_inv_partial (fun s => qsame q (uf_q s)) _ _ _ _ _ _ H0); [apply qsame_refl|].
    intros s i s1 _ HP Hs. apply bind_ok in Hs. destruct Hs as [g1 [_ Hs]]. apply uf_push_same in Hs. eapply qsame_trans; eassumption. }
  exact (ufmm_loop_same q _ _ _ _ _ _ E0 H).
Qed.

Theorem ufmm_reset_compute size inc (o0 o1 : ufmm_obj (N := N)) g0 g1 fuel :
  g_clean g0 = true -> default_cells g0 -> sv_setup (uo_s o0) = false -> uo_q o0 = uq_new size inc ->
  ufmm_compute fuel o0 g0 = Ok (o1, g1) ->
  exists o2, ufmm_reset o1 g1 = Ok (o2, g0) /\ ufmm_compute fuel o2 g0 = Ok (o1, g1).
Proof.
  intros Hcl Hd Hs Hq H. unfold ufmm_compute, ensure_setup in H. rewrite Hs, Hq in H. apply bind_ok in H. destruct H as [[s1 gb] [H1 H]].
  apply bind_ok in H. destruct H as [k [Hk H]]. apply bind_ok in H. destruct H as [[st log] [Hr H]]. injection H as <- <-.
  pose proof (solver_setup_ok _ _ _ _ H1) as [Es1 [Eg1 [Egr _]]]. assert (Eg : sv_grid s1 = GSet) by (rewrite Es1; exact Egr).
  pose proof (ufmm_run_frame (fun i => In i (sv_init s1)) _ _ _ _ _ _ (fun i Hi => Hi) Hr) as HF. rewrite Eg1 in HF. cbn [fst] in HF.
  pose proof (ufmm_run_same _ _ _ _ _ _ _ Hr) as [Q1 [Q2 [Q3 Q4]]]. cbn in Q1, Q2, Q3, Q4.
  assert (EQ : uq_clear (uf_q st) = uq_new size inc).
  { unfold uq_clear, uq_new. rewrite Q2, Q3, Q4. f_equal. rewrite repeat_length in Q1. rewrite <- Q1.
    generalize (uq_tab (uf_q st)) as l. induction l; cbn; congruence. }
  unfold ufmm_reset, solver_reset. cbn [uo_s]. rewrite Eg. cbn [bind]. rewrite (clean_after _ _ _ Hcl Hd HF).
  eexists. split; [reflexivity|]. cbn [uo_q]. rewrite EQ. unfold ufmm_compute, ensure_setup. cbn [uo_s uo_q sv_setup].
  pose proof (solver_setup_again _ _ _ _ false H1) as HA. rewrite <- Eg, Es1. cbn [sv_grid sv_init sv_goal]. rewrite HA. cbn [bind].
  rewrite Hk. cbn [bind]. rewrite Hr. cbn [bind]. rewrite Es1. reflexivity.
Qed.

End L.

(** Prop_FM2Obj.v - property theorems C41 and C42: FM2 objects in special situations, and path
    extraction after FMM and FM2. *)
From Coq Require Import Reals Lra.
From Verif Require Import Base BaseFacts Num NumXR NumF64 NumLaws Grid GridFacts GridUpd GridMore XGrid Spec DescentSpec Obs Examples Eikonal FMMModel HeapLaws HeapRef
  Frame Solution FMMStruct FMMAbs FMMX SolverModel Lifecycle Prop_FMM Prop_Solver FM2Model FM2Facts Prop_FM2 GDModel GDFacts Prop_GD.
Open Scope Z_scope.

(** ** refusals *)
Section Any.
Context {N : Num} (HO : HeapOps N).

(** the object a user gets from the constructor, setEnvironment and
    setInitialAndGoalPoints *)
Definition fm2_ready (md : N) (g : grid N) (init : list Z) (goal : Z) : res (fm2_obj HO * grid N) :=
  '(o, g0) <- fm2_setEnvironment HO (fm2_new HO md) (Some g) ;; Ok (fm2_setPoints HO o init goal, g0).

Lemma fm2_ready_eq md (g : grid N) init goal :
  g_clean g = true ->
  fm2_ready md g init goal = Ok (mkFm2 (mkSolver GSet false init (Some (u32 goal))) (g_obs g)
     (mkFmm (mkSolver GSet false [] None) (hempty HO) NOHEUR [] false []) md NOHEUR, g).
Proof.
  intros Hc. assert (Ec : clean g = g) by (unfold clean; rewrite Hc; reflexivity).
  unfold fm2_ready, fm2_setEnvironment. cbn. rewrite Ec, Ec. reflexivity.
Qed.

(** A map with exactly one listed obstacle: the checks of FM2 itself pass, yet compute()
    exits, because the obstacle is the single initial point of the inner solver. *)
Theorem C41_single_obstacle_exits :
  forall md (g : grid N) k s goal fuel,
  g_clean g = true -> g_obs g = [k] -> obstacle g k -> free g s -> free g goal -> s32 s <> s32 goal -> u32 goal = goal -> s32 goal <> -1 ->
  exists o, fm2_ready md g [s] goal = Ok (o, g) /\
    (exists o1, fm2_setup HO o g = Ok (o1, setClean g false)) /\
    fm2_compute HO fuel o g = Fail (Exit 1).
Proof.
  intros md g k s goal fuel Hcl Hobs [ck [Hk Ok_]] [cs [Hs Os]] [cg [Hg Og]] Hne Hu Hg1.
  eexists. split; [rewrite fm2_ready_eq by exact Hcl; reflexivity|]. rewrite Hu, Hobs.
  assert (Esan : sanityChecks (mkSolver GSet false [s] (Some goal)) g = Ok 0).
  { unfold sanityChecks. cbn [sv_grid sv_init goal_of sv_goal]. rewrite Hcl. cbn [negb]. rewrite Hs. cbn [bind]. rewrite Os.
    destruct (Z.eqb_spec (s32 goal) (-1)); [contradiction|]. cbn [negb]. rewrite Hg. cbn [bind]. rewrite Og.
    cbn [existsb]. destruct (Z.eqb_spec (s32 goal) (s32 s)) as [E|]; [congruence|reflexivity]. }
  assert (Esetup : fm2_setup HO (mkFm2 (mkSolver GSet false [s] (Some goal)) [k] (mkFmm (mkSolver GSet false [] None) (hempty HO) NOHEUR [] false []) md NOHEUR) g =
     Ok (mkFm2 (mkSolver GSet true [s] (Some goal)) [k] (mkFmm (mkSolver GSet false [] None) (hempty HO) NOHEUR [] false []) md NOHEUR, setClean g false)).
  { unfold fm2_setup, solver_setup. cbn [f2_s f2_sources f2_inner f2_maxDist f2_heur]. rewrite Esan. reflexivity. }
  split; [eexists; exact Esetup|].
  unfold fm2_compute, fm2_internal. cbn [f2_s sv_setup]. rewrite Esetup. cbn [bind].
  unfold fm2_velocities, fmm_setPoints, fmm_with_solver, setInitialAndGoalPoints. cbn [f2_inner f2_sources fo_s fo_band fo_strat fo_dist fo_pre fo_coord sv_grid sv_setup].
  unfold fmm_compute. cbn [fo_s sv_setup]. unfold fmm_setup, solver_setup. cbn [fo_s].
  assert (Ebad : sanityChecks (mkSolver GSet false [k] (Some (u32 (-1)))) (setClean (setClean g false) true) = Ok 4).
  { unfold sanityChecks. cbn [sv_grid sv_init]. change (g_clean (setClean (setClean g false) true)) with true. cbn [negb].
    rewrite !getCell_clean. rewrite Hk. cbn [bind]. rewrite Ok_. reflexivity. }
  rewrite Ebad. reflexivity.
Qed.

(** No listed obstacle, or more than one initial point: setup() already exits, and so does compute(). *)
Theorem C41_refusals :
  forall md (g : grid N) init goal fuel o1 g1,
  g_clean g = true -> solver_setup (mkSolver GSet false init (Some (u32 goal))) g = Ok (o1, g1) ->
  g_obs g = [] \/ (2 <= length init)%nat ->
  exists o, fm2_ready md g init goal = Ok (o, g) /\ fm2_setup HO o g = Fail (Exit 1) /\ fm2_compute HO fuel o g = Fail (Exit 1).
Proof.
  intros md g init goal fuel o1 g1 Hcl Hset H. eexists. split; [rewrite fm2_ready_eq by exact Hcl; reflexivity|].
  match goal with |- ?A = _ /\ _ => assert (ES : A = Fail (Exit 1)) end.
  { unfold fm2_setup. cbn [f2_s]. rewrite Hset. cbn [bind].
    destruct (solver_setup_ok _ _ _ _ Hset) as [-> _]. cbn [sv_init sv_grid sv_goal].
    destruct (Z.ltb_spec 1 (Z.of_nat (length init))); [reflexivity|]. destruct H as [H|H]; [|lia]. cbn [f2_sources]. rewrite H. reflexivity. }
  split; [exact ES|]. unfold fm2_compute, fm2_internal. cbn [f2_s sv_setup]. rewrite ES. reflexivity.
Qed.

(** *** no goal: any arithmetic *)
Lemma sanity_no_goal_any dims (g : grid N) s : shape_ok dims -> g_clean g = true -> sv_grid s = GSet ->
  (2 <= length (sv_init s))%nat \/ (exists i, sv_init s = [i] /\ free g i) ->
  (forall i, In i (sv_init s) -> 0 <= i < box_size dims) -> sv_goal s = Some (u32 (-1)) -> sanityChecks s g = Ok 0.
Proof.
  intros Hsh Hcl Hg Hl Hr Hk. unfold sanityChecks. rewrite Hg, Hcl. cbn [negb]. destruct (sv_init s) as [|i0 more] eqn:Ei.
  { destruct Hl as [Hl|[i [Hl _]]]; [cbn in Hl; lia|discriminate]. }
  assert (E4 : (match more with [] => c <- getCell g i0 ;; Ok (isOccupied c) | _ => Ok false end) = Ok false).
  { destruct Hl as [Hl|[i [Hl [c [Hc Ho]]]]]; [destruct more; [cbn in Hl; lia|reflexivity]|]. injection Hl as -> ->. rewrite Hc. cbn [bind]. rewrite Ho. reflexivity. }
  rewrite E4. cbn [bind]. unfold goal_of. rewrite Hk. cbn [bind]. change (s32 (u32 (-1)) =? -1) with true. cbn [negb bind].
  destruct (existsb (fun i => s32 (u32 (-1)) =? s32 i) (i0 :: more)) eqn:E; [|reflexivity].
  apply existsb_exists in E. destruct E as [i [Hi E]]. apply Z.eqb_eq in E. change (s32 (u32 (-1))) with (-1) in E.
  destruct (in_range_not_goal dims i Hsh (Hr i Hi)) as [Hne _]. congruence.
Qed.

Lemma getCell_out (g : grid N) i : Z.of_nat (length (g_cells g)) <= i -> getCell g i = Fail UB.
Proof.
  intros H. unfold getCell, vget. destruct (Z.leb_spec 0 i); [|reflexivity].
  destruct (nth_error (g_cells g) (Z.to_nat i)) as [c|] eqn:E; [|reflexivity]. exfalso.
  assert (Z.to_nat i < length (g_cells g))%nat by (apply nth_error_Some; rewrite E; discriminate). lia.
Qed.

(** FM2 without goal: the map and the initial point pass all the checks, the first wave runs
    to its end, and the second one is started from the cell of index 2^32-1. *)
Theorem C41_no_goal_undefined :
  NumLaws N -> HeapLaws HO -> forall dims md (g : grid N) s fuel,
  shape_ok dims -> g_clean g = true -> clean_grid dims g -> points_ok dims (g_obs g) -> (2 <= length (g_obs g))%nat ->
  (forall i, In i (g_obs g) -> obstacle g i) -> free g s -> box_size dims < Z.of_nat fuel ->
  exists o, fm2_ready md g [s] (-1) = Ok (o, g) /\ fm2_compute HO fuel o g = Fail UB.
Proof.
  intros L HL dims md g s fuel Hsh Hcl Hcg Hpts Hl Hob Hs Hfuel. eexists. split; [rewrite fm2_ready_eq by exact Hcl; reflexivity|].
  pose proof Hcg as [Hg Hc]. pose proof Hpts as [Hnd Hr].
  assert (Hrs : 0 <= s < box_size dims) by (destruct Hs as [c [Hs _]]; apply getCell_range in Hs; destruct Hg as [_ <-]; exact Hs).
  set (in0 := mkFmm (mkSolver GSet false [] None) (hempty HO) NOHEUR [] false []).
  assert (Esan : sanityChecks (mkSolver GSet false [s] (Some (u32 (-1)))) g = Ok 0).
  { apply (sanity_no_goal_any dims); auto; [right; exists s; auto|]. intros i [<-|[]]. exact Hrs. }
  assert (Esetup : fm2_setup HO (mkFm2 (mkSolver GSet false [s] (Some (u32 (-1)))) (g_obs g) in0 md NOHEUR) g =
     Ok (mkFm2 (mkSolver GSet true [s] (Some (u32 (-1)))) (g_obs g) in0 md NOHEUR, setClean g false)).
  { unfold fm2_setup, solver_setup. cbn [f2_s f2_sources f2_inner f2_maxDist f2_heur]. rewrite Esan. cbn [bind]. destruct (g_obs g); [cbn in Hl; lia|reflexivity]. }
  unfold fm2_compute, fm2_internal. cbn [f2_s sv_setup]. rewrite Esetup. cbn [bind].
  (* the first wave *)
  destruct (C15_fmm_terminates_any_arithmetic N L HO HL dims (setClean g false) (g_obs g) no_heur (u32 (-1)) fuel) as [st [log [Hrun _]]];
    [exact Hsh|split; [exact Hg|exact Hc]|exact Hpts|left; reflexivity|left; exact Hob|exact Hfuel|].
  unfold fmm_outcome in Hrun.
  unfold fm2_velocities. cbn [f2_inner f2_sources]. unfold fmm_compute, fmm_setPoints, fmm_with_solver, setInitialAndGoalPoints, in0.
  cbn [fo_s fo_band fo_strat fo_dist fo_pre fo_coord sv_grid sv_setup]. unfold fmm_setup, solver_setup. cbn [fo_s].
  rewrite (sanity_no_goal_any dims); [|exact Hsh|reflexivity|reflexivity|left; exact Hl|exact Hr|reflexivity].
  cbn [bind Z.eqb negb fmm_with_solver fo_band fo_strat fo_dist fo_pre fo_coord fo_s sv_grid sv_init sv_goal fmm_setHeuristics goal_of].
  change (setClean (setClean (setClean g false) true) false) with (setClean g false).
  rewrite fmm_run_noheur by reflexivity. rewrite Hrun. cbn [bind].
  cbn [f2_s goal_of sv_goal sv_init f2_inner f2_heur fo_s fo_band fo_strat fo_dist fo_pre fo_coord sv_setup]. change (vget [s] 0) with (Ok s : res Z). cbn [bind].
  cbn [goal_of fo_s sv_goal bind sv_init]. unfold fmm_run. cbn [foldM]. unfold fmm_init1. cbn [fs_g].
  match goal with |- context[setArrivalTime ?gg (u32 (-1)) n0] => assert (EU : setArrivalTime gg (u32 (-1)) n0 = Fail UB); [|rewrite EU; reflexivity] end.
  unfold setArrivalTime, updCell. rewrite getCell_out; [reflexivity|].
  pose proof (fmm_run_frame (fun i => In i (g_obs g)) HO fuel no_heur (u32 (-1)) (g_obs g) (setClean g false) (hempty HO) st log ltac:(auto) Hrun) as [_ [_ [_ [_ [HLen _]]]]].
  match goal with |- Z.of_nat (length (g_cells ?gg)) <= _ => assert (EL : length (g_cells gg) = length (g_cells (fs_g st))) end.
  { destruct (g_cells (fs_g st)) eqn:Eg; cbn [g_cells setClean with_cells]; rewrite map_length; reflexivity. }
  rewrite EL, HLen. cbn [setClean g_cells]. destruct Hg as [_ ->]. destruct Hsh as [_ Hsz]. change (u32 (-1)) with 4294967295. lia.
Qed.
End Any.

(** ** computePath and then again *)

(** After compute() and computePath() the stored initial point is the goal: reset() and
    compute() then exit, for every map and every pair of points. *)
Theorem C41_second_run_after_path_exits :
  forall (HO : HeapOps XR) (HL : HeapLaws HO) dims (g : grid XR) s goal md fuel,
  fm2_map dims g -> free g s -> free g goal -> s <> goal -> md <> 0%R -> box_size dims < Z.of_nat fuel ->
  exists o g0 o' g', fm2_ready HO (XFin md : XR) g [s] goal = Ok (o, g0) /\ fm2_compute HO fuel o g0 = Ok (o', g') /\
  sv_init (f2_s o') = [s] /\
  forall fuel1 path vel (step : XR) o2 path2 vel2, fm2_computePath fuel1 o' g' path vel step = Ok (o2, path2, vel2) ->
    sv_init (f2_s o2) = [goal] /\
    exists o3 g3, fm2_reset HO o2 g' = Ok (o3, g3) /\ forall fuel2, fm2_compute HO fuel2 o3 g3 = Fail (Exit 1).
Proof.
  intros HO HL dims g s goal md fuel Hmap Hs Hk Hne Hmd Hfuel.
  destruct (C40_fm2_computes HO HL dims g s goal md fuel Hmap Hs Hk Hne Hmd Hfuel) as [o [g0 [o' [gv [g' [E1 [E2 [HV [Hocc [HT2 [HT0 [Hpos [Hok [Hg [Hcl [Ho' Hin]]]]]]]]]]]]]]]].
  exists (fm2_setPoints HO o [s] goal), g0, o', g'. split; [unfold fm2_ready; rewrite E1; reflexivity|]. split; [exact E2|]. split; [rewrite Ho'; reflexivity|].
  intros fuel1 path vel step o2 path2 vel2 HP. unfold fm2_computePath in HP. rewrite Ho' in HP. cbn [sv_init] in HP.
  apply bind_ok in HP. destruct HP as [[[i' p'] v'] [HP1 HP2]]. injection HP2 as <- <- <-. cbn [f2_s sv_init sv_grid sv_setup sv_goal].
  destruct (C42_path_shape XR g' fuel1 s path vel step _ _ _ HP1) as [cs [cs' [t [pts [v0 [vs [v1 [_ [_ [Ht [Hz _]]]]]]]]]]].
  assert (Ei : i' = goal).
  { destruct (Z.eq_dec i' goal) as [E|E]; [exact E|]. exfalso. unfold time_is in Ht.
    assert (Q : exists r, t = XFin r /\ r = 0%R).
    { destruct t as [r| | |]; try (cbn in Hz; discriminate). exists r. split; [reflexivity|]. cbn in Hz. unfold Reqb in Hz. destruct (Req_EM_T r 0); [assumption|discriminate]. }
    destruct Q as [r [-> ->]]. assert (HT : times g' i' = Some 0%R) by (unfold times; rewrite Ht; reflexivity).
    destruct (Hpos i' 0%R HT E) as [Q _]. lra. }
  subst i'. split; [reflexivity|].
  unfold fm2_reset, solver_reset, fmm_reset, solver_reset. cbn [f2_s f2_inner sv_grid]. cbn [bind]. rewrite Hin. cbn [bind].
  eexists _, _. split; [reflexivity|]. intros fuel2.
  unfold fm2_compute, fm2_internal. cbn [f2_s sv_setup]. unfold fm2_setup, solver_setup. cbn [f2_s].
  assert (Efree : free gv goal \/ ~ free gv goal).
  { unfold free. destruct (getCell gv goal) as [c|]; [|right; intros [c [Q _]]; discriminate]. destruct (isOccupied c) eqn:EO; [right|left; eauto]. intros [c' [Q Q']]. congruence. }
  assert (Hrk : 0 <= goal < box_size dims). { unfold times in HT0. destruct (getArrivalTime g' goal) as [x|] eqn:EQ; [|discriminate]. unfold getArrivalTime in EQ. destruct (getCell g' goal) as [c|] eqn:EC; [|discriminate]. apply getCell_range in EC. destruct Hg as [_ <-]. exact EC. }
  assert (Hg3 : exists c, getCell (clean (clean g')) goal = Ok c).
  { rewrite clean_clean. apply (getCell_in dims); [|exact Hrk]. unfold clean. rewrite Hcl. cbn [negb]. destruct Hg as [G1 G2]. split; [exact G1|]. cbn [g_cells]. rewrite map_length. exact G2. }
  destruct Hg3 as [c3 Hc3].
  assert (Esan : exists n, sanityChecks (mkSolver GSet false [goal] (Some goal)) (clean (clean g')) = Ok n /\ n <> 0).
  { unfold sanityChecks. cbn [sv_grid sv_init goal_of sv_goal]. rewrite !clean_flag. cbn [negb]. rewrite Hc3. cbn [bind].
    destruct (isOccupied c3) eqn:EO; [exists 4; split; [reflexivity|lia]|].
    pose proof Hmap as [_ [[Hsh _] _]]. destruct (in_range_not_goal dims goal Hsh Hrk) as [Hk1 _].
    destruct (Z.eqb_spec (s32 goal) (-1)); [contradiction|]. cbn [negb bind]. rewrite ?Hc3. cbn [bind]. rewrite ?EO. exists 6. split; [|lia].
    cbn [existsb]. rewrite Z.eqb_refl. reflexivity. }
  destruct Esan as [n [Esan Hn]]. cbn [sv_grid sv_setup sv_init sv_goal]. rewrite Esan. cbn [bind]. destruct (Z.eqb_spec n 0); [contradiction|]. reflexivity.
Qed.

(** ** path extraction on the smallest walled map *)

(** a 4x4 map, walls all around, the four inner cells 5 6 9 10 free *)
Definition box4 (g : grid XR) : Prop :=
  (forall i, In i [5; 6; 9; 10] -> free g i) /\ (forall i, 0 <= i < 16 -> ~ In i [5; 6; 9; 10] -> obstacle g i).

Lemma box4_walled g T : box4 g -> (forall i t, T i = Some t -> free g i) -> walled [4; 4] T.
Proof.
  intros [_ Hw] HT cs Hb Hi. destruct (T (cell_number [4; 4] cs)) as [t|] eqn:E; [|reflexivity]. exfalso.
  destruct (HT _ _ E) as [c [Hc Ho]].
  inversion Hb as [|k1 a ? r1 B1 Hb1]; subst. inversion Hb1 as [|k2 b ? r2 B2 Hb2]; subst. inversion Hb2; subst.
  destruct (Hw (cell_number [4; 4] [a; b])) as [c' [Hc' Ho']].
  - cbn [cell_number]. lia.
  - intros K. cbn [cell_number] in K. assert (A : 0 < a < 4 - 1 /\ 0 < b < 4 - 1) by (destruct K as [K|[K|[K|[K|[]]]]]; lia). destruct A as [A1 A2]. apply Hi. unfold interior. apply Forall2_cons; [exact A1|]. apply Forall2_cons; [exact A2|]. apply Forall2_nil.
  - congruence.
Qed.

Lemma adj_4 a b i j : 0 <= a < 4 -> 0 <= b < 3 -> i = a + 4 * b -> j = a + 4 * (b + 1) -> adjacent [4; 4] i j.
Proof.
  intros Ha Hb -> ->. exists [a; b], [a; b + 1]. split; [repeat (constructor; [lia|]); constructor|]. split; [repeat (constructor; [lia|]); constructor|].
  split; [apply us_later, us_here; lia|]. split; cbn [cell_number]; lia.
Qed.
Lemma adj_1 a b i j : 0 <= a < 3 -> 0 <= b < 4 -> i = a + 4 * b -> j = (a + 1) + 4 * b -> adjacent [4; 4] i j.
Proof.
  intros Ha Hb -> ->. exists [a; b], [a + 1; b]. split; [repeat (constructor; [lia|]); constructor|]. split; [repeat (constructor; [lia|]); constructor|].
  split; [apply us_here; lia|]. split; cbn [cell_number]; lia.
Qed.

(** After an exact run of FMM from cell 9, whatever the velocities of the four cells, the
    extraction from the adjacent cell 5 never ends; from the same map solved from cell 10 it
    arrives at once. *)
Theorem C42_endless_after_fmm :
  forall (HO : HeapOps XR) (HL : HeapLaws HO) (g : grid XR) fuel st log,
  exact_problem [4; 4] g [9] -> box4 g -> 16 < Z.of_nat fuel ->
  fmm_outcome HO no_heur noGoal [9] g fuel st log ->
  forall fuel1 path vel, gd_apply fuel1 (fs_g st) 5 path vel (XFin 1 : XR) = Fail OutOfFuel.
Proof.
  intros HO HL g fuel st log HP Hbox Hfuel Hrun fuel1 path vel.
  pose proof HP as [[H2 Hlt] [[Hg Hc] [Hre [Hnd Hr]]]].
  assert (Hp : proper [4; 4]) by (apply dims2_proper; exact H2).
  assert (Hs : separated [4; 4] g [9]) by (apply separated_one; exact Hp).
  destruct (run_X HO HL [4; 4] H2 Hlt no_heur eq_refl [9] Hnd Hr g Hg Hre Hc Hs noGoal fuel) as [st2 [log2 [A [X [Hd _]]]]]; [change (box_size [4; 4]) with 16; lia|].
  assert (st2 = st) by (unfold fmm_outcome in Hrun; congruence). subst st2.
  pose proof (h_base _ _ _ _ _ _ _ Hd) as Hba.
  assert (HFree : forall i t, times (fs_g st) i = Some t -> i <> 9 -> (0 < t)%R /\ free g i).
  { intros i t Ht Hi. destruct (b_reached _ _ _ _ _ _ _ Hba i t Ht) as [_ [B1 [B2 _]]]; [intros [E|[]]; congruence|]. split; [exact B1|exact B2]. }
  assert (H9 : times (fs_g st) 9 = Some 0%R) by exact (proj2 (b_init _ _ _ _ _ _ _ Hba 9 (or_introl eq_refl))).
  assert (R10 : reachable [4; 4] (fun k => In k [9]) (free g) 10).
  { apply (reach_step _ _ _ 9 10); [constructor; left; reflexivity|apply (adj_1 1 2); lia|apply (proj1 Hbox); cbn; auto]. }
  assert (R6 : reachable [4; 4] (fun k => In k [9]) (free g) 6).
  { apply (reach_step _ _ _ 10 6); [exact R10|apply adjacent_sym, (adj_4 2 1); lia|apply (proj1 Hbox); cbn; auto]. }
  destruct (C17_reaches_exactly_connected HO HL [4; 4] g [9] fuel st log 6 HP Hs ltac:(change (box_size [4; 4]) with 16; lia) Hrun ltac:(change (box_size [4; 4]) with 16; lia)) as [C _].
  destruct (proj2 C R6) as [t6 Ht6].
  apply (C42_never_returns (fs_g st) path vel t6 0%R).
  - exact (si_grid _ _ _ _ _ _ _ (xs_s _ _ _ _ _ _ _ _ X)).
  - exact (xs_tok _ _ _ _ _ _ _ _ X).
  - apply (box4_walled g); [exact Hbox|]. intros i t Ht. destruct (Z.eq_dec i 9) as [->|Hi]; [apply (proj1 Hbox); cbn; auto|]. exact (proj2 (HFree i t Ht Hi)).
  - intros E. destruct (HFree 5 0%R E ltac:(lia)). lra.
  - intros E. destruct (HFree 10 0%R E ltac:(lia)). lra.
  - unfold times. unfold time_is in Ht6. rewrite Ht6. reflexivity.
  - exact H9.
Qed.

(** The same through FM2: compute() from 5 to 9 succeeds and computePath() never returns. *)
Theorem C42_no_path_after_fm2 :
  forall (HO : HeapOps XR) (HL : HeapLaws HO) (g : grid XR) fuel,
  fm2_map [4; 4] g -> box4 g -> 16 < Z.of_nat fuel ->
  exists o g0 o' g', fm2_ready HO (XFin (-1) : XR) g [5] 9 = Ok (o, g0) /\ fm2_compute HO fuel o g0 = Ok (o', g') /\
  forall fuel1 path vel r, fm2_computePath fuel1 o' g' path vel (XFin 1 : XR) <> Ok r.
Proof.
  intros HO HL g fuel Hmap Hbox Hfuel.
  assert (F5 : free g 5) by (apply (proj1 Hbox); cbn; auto). assert (F9 : free g 9) by (apply (proj1 Hbox); cbn; auto).
  destruct (C40_fm2_computes HO HL [4; 4] g 5 9 (-1) fuel Hmap F5 F9 ltac:(lia) ltac:(lra) ltac:(change (box_size [4; 4]) with 16; lia))
    as [o [g0 [o' [gv [g' [E1 [E2 [HV [Hocc [HT2 [HT0 [Hpos [Hok [Hg [Hcl [Ho' Hin]]]]]]]]]]]]]]]].
  exists (fm2_setPoints HO o [5] 9), g0, o', g'. split; [unfold fm2_ready; rewrite E1; reflexivity|]. split; [exact E2|].
  destruct (C40_velocities_are_normalised [4; 4] g gv HV) as [HN _].
  assert (Hfr : forall i t, times g' i = Some t -> free g i).
  { intros i t Ht. destruct (Z.eq_dec i 9) as [->|Hi]; [exact F9|]. destruct (Hpos i t Ht Hi) as [_ [c [Hc Ho]]].
    pose proof (getCell_range _ _ _ Hc) as Hrg. destruct HV as (T & M & h & _ & _ & _ & _ & _ & [_ Hlen] & _). rewrite Hlen in Hrg.
    destruct (HN i Hrg) as [c1 [v [Hc1 [Hv [_ [Hobs _]]]]]]. assert (c1 = c) by congruence. subst c1.
    destruct (in_dec Z.eq_dec i [5; 6; 9; 10]) as [I|I]; [apply (proj1 Hbox), I|]. exfalso.
    specialize (Hobs (proj2 Hbox i Hrg I)). subst v. rewrite (proj1 (occ_0_1 c) Hv) in Ho. discriminate. }
  assert (Hw : walled [4; 4] (times g')) by (apply (box4_walled g); assumption).
  intros fuel1 path vel r HP. unfold fm2_computePath in HP. rewrite Ho' in HP. cbn [sv_init] in HP.
  apply bind_ok in HP. destruct HP as [[[i' p'] v'] [HP _]].
  assert (N5 : times g' 5 <> Some 0%R) by (intros E; destruct (Hpos 5 0%R E ltac:(lia)); lra).
  assert (N10 : times g' 10 <> Some 0%R) by (intros E; destruct (Hpos 10 0%R E ltac:(lia)); lra).
  destruct (times g' 6) as [t6|] eqn:E6.
  - rewrite (C42_never_returns g' path vel t6 0%R Hg Hok Hw N5 N10 E6 HT0 fuel1) in HP. discriminate.
  - destruct fuel1 as [|fuel1]; [unfold gd_apply in HP; repeat (apply bind_ok in HP; destruct HP as [? [? HP]]); discriminate|].
    change 5 with (cell_number [4; 4] [1; 1]) in HP.
    rewrite (C42_stuck_start [4; 4] g' 1 [1; 1] fuel1 path vel) in HP; [discriminate|exact (proj1 (proj1 (proj2 Hmap)))|cbn; lia|exact Hg|exact Hok|exact Hw|lra|repeat (constructor; [lia|]); constructor|].
    split; [exact N5|]. left. exists 0%nat. split; [cbn; lia|]. unfold slope_at.
    assert (E4 : times g' (cell_number [4; 4] (shifted [1; 1] 0 (-1))) = None).
    { apply Hw; [repeat (constructor; [cbn; lia|]); constructor|]. intros K. inversion K; subst. cbn in *. lia. }
    rewrite E4. change (cell_number [4; 4] (shifted [1; 1] 0 1)) with 6. rewrite E6. reflexivity.
Qed.

(** *** the hypotheses can be met *)
Definition box4_grid : grid XR :=
  setOccupiedCells (vgrid [4; 4] (n1 : XR) (map XFin [0; 0; 0; 0; 0; 1; 1; 0; 0; 1; 1; 0; 0; 0; 0; 0]%R : list XR)) [0; 1; 2; 3; 4; 7; 8; 11; 12; 13; 14; 15].
Lemma box4_cell i c : getCell box4_grid i = Ok c ->
  (In i [5; 6; 9; 10] /\ c_occ c = XFin 1) \/ (In i [0; 1; 2; 3; 4; 7; 8; 11; 12; 13; 14; 15] /\ c_occ c = XFin 0).
Proof.
  intros H. pose proof (getCell_range _ _ _ H) as R. cbn in R.
  assert (K : In i (zseq 16)) by (apply in_zseq; lia). cbn in K.
  repeat (destruct K as [<-|K]; [injection H as <-; cbn; ((left; split; [tauto|reflexivity]) + (right; split; [tauto|reflexivity]))|]). contradiction.
Qed.
Lemma box4_box : box4 box4_grid.
Proof.
  split.
  - intros i Hi. destruct (getCell_in [4;4] box4_grid i (proj1 (vgrid_clean [4;4] (n1 : XR) (map XFin [0; 0; 0; 0; 0; 1; 1; 0; 0; 1; 1; 0; 0; 0; 0; 0]%R : list XR) eq_refl))) as [c Hc]; [cbn in Hi |- *; lia|].
    exists c. split; [exact Hc|]. destruct (box4_cell _ _ Hc) as [[_ E]|[K _]]; [apply (proj2 (occ_0_1 c) E)|cbn in Hi, K; lia].
  - intros i Hi Hn. destruct (getCell_in [4;4] box4_grid i (proj1 (vgrid_clean [4;4] (n1 : XR) (map XFin [0; 0; 0; 0; 0; 1; 1; 0; 0; 1; 1; 0; 0; 0; 0; 0]%R : list XR) eq_refl))) as [c Hc]; [cbn; lia|].
    exists c. split; [exact Hc|]. destruct (box4_cell _ _ Hc) as [[K _]|[_ E]]; [contradiction|apply (proj1 (occ_0_1 c) E)].
Qed.
Lemma box4_problem init : NoDup init -> (forall i, In i init -> 0 <= i < 16) -> exact_problem [4; 4] box4_grid init.
Proof.
  intros Hnd Hr. split; [split; [repeat (constructor; [lia|]); constructor|cbn; lia]|].
  split; [exact (vgrid_clean [4;4] (n1 : XR) (map XFin [0; 0; 0; 0; 0; 1; 1; 0; 0; 1; 1; 0; 0; 0; 0; 0]%R : list XR) eq_refl)|].
  split; [split|split].
  - exists 1%R. split; [reflexivity|lra].
  - intros i c Hc. destruct (box4_cell _ _ Hc) as [[_ ->]|[_ ->]]; eauto.
  - exact Hnd.
  - exact Hr.
Qed.
Example C42_case : exact_problem [4; 4] box4_grid [9] /\ box4 box4_grid /\ fm2_map [4; 4] box4_grid.
Proof.
  split; [apply box4_problem; [repeat constructor; intros []|intros i [<-|[]]; lia]|]. split; [exact box4_box|].
  split; [reflexivity|]. split; [|split; [|cbn; lia]].
  - apply box4_problem; [cbn; repeat (constructor; [cbn; lia|]); constructor|intros i Hi; cbn in Hi; lia].
  - intros i. split.
    + intros Hi. apply (proj2 box4_box); cbn in *; lia.
    + intros [c [Hc Ho]]. destruct (box4_cell _ _ Hc) as [[_ E]|[K _]]; [rewrite (proj2 (occ_0_1 c) E) in Ho; discriminate|exact K].
Qed.

(** a path that is found: the same map with times 1, 1, 1, 0 in the cells 5 6 9 10 *)
Example C42_found : forall g : grid XR, grid_ok [4; 4] g -> times_ok g -> walled [4; 4] (times g) ->
  times g 5 = Some 1%R -> times g 6 = Some 1%R -> times g 9 = Some 1%R -> times g 10 = Some 0%R ->
  exists vs, gd_apply 2 g 5 [] [] (XFin 1 : XR) = Ok (10, map (fun p => map XFin p : list XR) [[1; 1]; [2; 2]; [2; 2]]%R, vs).
Proof.
  intros g Hg Hok Hw H5 H6 H9 H10.
  assert (Hsh : shape_ok [4; 4]) by (split; [repeat (constructor; [lia|]); constructor|cbn; lia]).
  assert (Hi : interior [4; 4] [1; 1]) by (repeat (constructor; [lia|]); constructor).
  destruct (getCell_in [4; 4] g 5 Hg ltac:(cbn; lia)) as [c5 Hc5]. destruct (getCell_in [4; 4] g 10 Hg ltac:(cbn; lia)) as [c10 Hc10].
  assert (HT : forall i c, getCell g i = Ok c -> c_val c = ox (times g i)) by (intros; apply times_val; assumption).
  assert (B : forall a b, 0 <= a < 4 -> 0 <= b < 4 -> a = 0 \/ a = 3 \/ b = 0 \/ b = 3 -> times g (a + 4 * b) = None).
  { intros a b Ha Hb Hab. replace (a + 4 * b) with (cell_number [4; 4] [a; b]) by (cbn [cell_number]; lia). apply Hw.
    - constructor; [lia|constructor; [lia|constructor]].
    - intros I. inversion I as [|? ? ? ? I1 I2]; subst. inversion I2; subst. lia. }
  assert (Gd : gd_gradient g 5 = Ok ([XFin (-1); XFin (-1)] : list XR, XFin (Rabs (-1)) : XR)).
  { unfold gd_gradient. rewrite (proj1 Hg). change (s_dims (mk_shape [4; 4])) with [4; 4]. change (removelast (s_d (mk_shape [4; 4]))) with [4].
    rewrite (gd_component_X [4; 4] g 5 1 Hg Hok) by (cbn; lia). cbn [bind foldM].
    rewrite (gd_component_X [4; 4] g 5 4 Hg Hok) by (cbn; lia). cbn [bind foldM].
    pose proof (B 0 1 ltac:(lia) ltac:(lia) ltac:(lia)) as E4. pose proof (B 1 0 ltac:(lia) ltac:(lia) ltac:(lia)) as E1. cbn in E4, E1.
    change (5 - 1) with 4. change (5 + 1) with 6. change (5 - 4) with 1. change (5 + 4) with 9. rewrite E4, E1, H6, H9. cbn [slope comp].
    assert (EC : nltb (nabs (nabs (XFin (-1) : XR))) (nabs (XFin (-1) : XR)) = Rltb (Rabs (Rabs (-1))) (Rabs (-1))) by reflexivity.
    rewrite EC, Rabs_Rabsolu. unfold Rltb. destruct (Rlt_dec (Rabs (-1)) (Rabs (-1))); [lra|]. reflexivity. }
  assert (EA : Rabs (-1) = 1%R) by (unfold Rabs; destruct Rcase_abs; lra). rewrite EA in Gd.
  unfold gd_apply. change 5 with (cell_number [4; 4] [1; 1]) at 1. rewrite (proj1 Hg), idx2coord_eq; [|cbn; lia|cbn; lia|apply interior_in_box, Hi]. cbn [bind].
  rewrite Hc5. cbn [bind]. cbn [gd_loop]. unfold getArrivalTime at 1. rewrite Hc5. cbn [bind]. rewrite (HT 5 c5 Hc5), H5. cbn [ox].
  assert (E0 : neqb (XFin 1 : XR) n0 = false) by (cbn; unfold Reqb; destruct Req_EM_T; [lra|reflexivity]). rewrite E0, Gd. cbn [bind map combine fst snd].
  change (nofZ 1 : XR) with (XFin 1 : XR). rewrite !move_X by lra. rewrite Rabs_R1.
  replace (1 - 1 * -1 / 1)%R with 2%R by field. cbn [mapM]. rewrite !(gd_round_X 2 2) by (lra || lia). cbn [bind].
  rewrite (proj1 Hg), (coord2idx_eq [4; 4] [2; 2]); [|discriminate|cbn; lia|repeat (constructor; [lia|]); constructor]. cbn [bind].
  change (cell_number [4; 4] [2; 2]) with 10. unfold getArrivalTime. rewrite Hc10. cbn [bind]. rewrite (HT 10 c10 Hc10), H10. cbn [ox].
  assert (E1 : neqb (XFin 0 : XR) n0 = true) by (cbn; unfold Reqb; destruct Req_EM_T; [reflexivity|congruence]). rewrite E1. cbn [bind].
  change 10 with (cell_number [4; 4] [2; 2]) at 1. rewrite idx2coord_eq; [|cbn; lia|cbn; lia|repeat (constructor; [lia|]); constructor]. cbn [bind].
  rewrite Hc10. cbn [bind app map]. eexists. reflexivity.
Qed.

(** Prop_Clear.v - property theorems C63 (points given by coordinates), C64 (clear()) and the
    part of C17 that holds for every arithmetic. *)
From Coq Require Import Permutation.
From Verif Require Import Base BaseFacts Num NumF64 NumXR NumLaws Grid GridFacts GridUpd GridMore Spec Obs Eikonal FMMModel HeapRef HeapLaws
  Frame FMMStruct FMMReach SweepModel QueueModel UntidyModel SolverModel FM2Model Lifecycle Examples Prop_FMM Prop_Heap Prop_Solver.
Open Scope Z_scope.

(** ** C17, every arithmetic (so for IEEE doubles): the cells a complete run freezes are
    exactly those connected to the initial point; a run with a goal freezes the goal exactly
    when it is connected. *)
Theorem C17_freezes_exactly_connected_any_arithmetic :
  forall (N : Num) (L : NumLaws N) (HO : HeapOps N) (HL : HeapLaws HO) dims (g : grid N) init cfg fuel st log,
  shape_ok dims -> clean_grid dims g -> points_ok dims init -> heuristic_ready dims cfg ->
  (forall i, In i init -> obstacle g i) \/ (exists s, init = [s]) ->
  fmm_outcome HO cfg noGoal init g fuel st log ->
  forall i, 0 <= i < box_size dims -> exists c, getCell (fs_g st) i = Ok c /\
    (reachable dims (fun k => In k init) (free g) i -> c_state c = FROZEN) /\
    (~ reachable dims (fun k => In k init) (free g) i -> c_state c = OPEN).
Proof.
  intros N L HO HL dims g init cfg fuel st log [H2 Hlt] [Hg Hc] [Hnd Hr] Hh Hq Hrun i Hi.
  destruct (quiet_run L HO HL dims H2 Hlt cfg init Hh noGoal fuel g st log Hg Hnd Hr) as [I [R [F E]]].
  { intros k c Hk. apply (Hc k c Hk). }
  { destruct Hq as [Hq|Hq]; [left|right; exact Hq]. intros k Hk [c [K1 K2]]. destruct (Hq k Hk) as [c' [K3 K4]]. congruence. }
  { exact Hrun. }
  assert (He : helems HO (fs_h st) = []).
  { destruct E as [E|[r ->]]; [exact E|exfalso]. pose proof (si_rng _ _ _ _ _ _ _ I noGoal ltac:(apply in_or_app; right; left; reflexivity)) as K. unfold noGoal in K. lia. }
  pose proof (full_run_log HO HL dims init _ _ _ g I R He) as HL'.
  destruct (getCell_in dims (fs_g st) i (si_grid _ _ _ _ _ _ _ I) Hi) as [c Hci]. exists c. split; [exact Hci|].
  split; intros K.
  - apply (si_frozen _ _ _ _ _ _ _ I i c Hci), HL', K.
  - apply state_cases; intros S.
    + apply (si_frozen _ _ _ _ _ _ _ I i c Hci) in S. apply K, HL', S.
    + apply (si_narrow _ _ _ _ _ _ _ I i c Hci) in S. rewrite He in S. destruct S as [[] _].
Qed.

Theorem C17_goal_frozen_iff_connected_any_arithmetic :
  forall (N : Num) (L : NumLaws N) (HO : HeapOps N) (HL : HeapLaws HO) dims (g : grid N) init cfg goal fuel st log,
  shape_ok dims -> clean_grid dims g -> points_ok dims init -> heuristic_ready dims cfg ->
  (forall i, In i init -> obstacle g i) \/ (exists s, init = [s]) ->
  fmm_outcome HO cfg goal init g fuel st log -> 0 <= goal < box_size dims ->
  exists c, getCell (fs_g st) goal = Ok c /\ (c_state c = FROZEN <-> reachable dims (fun k => In k init) (free g) goal).
Proof.
  intros N L HO HL dims g init cfg goal fuel st log [H2 Hlt] [Hg Hc] [Hnd Hr] Hh Hq Hrun Hk.
  destruct (quiet_run L HO HL dims H2 Hlt cfg init Hh goal fuel g st log Hg Hnd Hr) as [I [R [F E]]].
  { intros k c Hk'. apply (Hc k c Hk'). }
  { destruct Hq as [Hq|Hq]; [left|right; exact Hq]. intros k Hk' [c [K1 K2]]. destruct (Hq k Hk') as [c' [K3 K4]]. congruence. }
  { exact Hrun. }
  destruct (getCell_in dims (fs_g st) goal (si_grid _ _ _ _ _ _ _ I) Hk) as [c Hci]. exists c. split; [exact Hci|].
  rewrite (si_frozen _ _ _ _ _ _ _ I goal c Hci). split; intros K.
  - apply (proj1 R). apply in_or_app. right; exact K.
  - destruct E as [E|[r ->]]; [|left; reflexivity]. apply (full_run_log HO HL dims init _ _ _ g I R E), K.
Qed.

(** ** C63 *)
Section C63.
Context {N : Num}.

(** the coordinate versions of the setters choose the cell at those coordinates *)
Theorem C63_coordinates_choose_the_cell :
  forall dims (g : grid N) s a b,
  (2 <= length dims)%nat -> proper dims -> box_size dims < 4294967296 -> grid_ok dims g -> sv_grid s = GSet -> in_box dims a -> in_box dims b ->
  exists i k, idx2coord (g_sh g) i = Ok a /\ idx2coord (g_sh g) k = Ok b /\ 0 <= i < box_size dims /\ 0 <= k < box_size dims /\
    setInitialAndGoalCoords s g a b = Ok (setInitialAndGoalPoints s [i] k) /\
    setInitialCoords s g a = Ok (setInitialPoints s [i]).
Proof.
  intros dims g s a b Hl Hp Hlt Hg Hs Ha Hb. destruct (idx_coord_bijection dims Hl Hp Hlt) as [_ B].
  destruct (B a Ha) as [i [A1 [_ [A3 A4]]]]. destruct (B b Hb) as [k [B1 [_ [B3 B4]]]]. exists i, k.
  unfold setInitialAndGoalCoords, setInitialCoords, setInitialPoints. rewrite Hs, (proj1 Hg), A1, B1. cbn [bind]. auto 10.
Qed.

(** ... so that compute() refuses the problem exactly when the map is dirty, one of the two
    cells is an obstacle, or they are the same cell *)
Theorem C63_refused_exactly_when :
  forall dims (g : grid N) s a b,
  (2 <= length dims)%nat -> proper dims -> box_size dims < 4294967296 -> grid_ok dims g -> sv_grid s = GSet -> in_box dims a -> in_box dims b ->
  exists s', setInitialAndGoalCoords s g a b = Ok s' /\
    (solver_setup s' g = Fail (Exit 1) <->
     g_clean g = false \/ obstacle g (cell_number dims a) \/ obstacle g (cell_number dims b) \/ a = b).
Proof.
  intros dims g s a b Hl Hp Hlt Hg Hs Ha Hb.
  assert (Hne : dims <> []) by (intros ->; cbn in Hl; lia).
  pose proof (cell_number_range dims a Ha) as Ra. pose proof (cell_number_range dims b Hb) as Rb.
  exists (setInitialAndGoalPoints s [cell_number dims a] (cell_number dims b)). split.
  { unfold setInitialAndGoalCoords. rewrite Hs, (proj1 Hg), !coord2idx_eq by assumption. reflexivity. }
  rewrite (C38_setup_exits_iff dims g s [cell_number dims a] (cell_number dims b) Hp Hlt Hg Hs); [|intros i [<-|[]]; exact Ra|right; exact Rb].
  split.
  - intros [H|[H|[[i [H1 H2]]|[[_ H]|[H|[]]]]]]; [auto|discriminate|injection H1 as <-; auto|auto|].
    right; right; right. exact (cell_number_inj dims a b Ha Hb H).
  - intros [H|[H|[H|H]]]; [auto|right; right; left; eauto|right; right; right; left; split; [lia|exact H]|].
    subst b. right; right; right; right. left. reflexivity.
Qed.

(** coordinates are not checked: outside the box they silently denote another cell *)
Theorem C63_outside_coordinates_alias :
  forall x y nx ny (g : grid N) s, 0 < nx -> 0 < ny -> nx * ny < 4294967296 -> grid_ok [nx; ny] g -> sv_grid s = GSet ->
  nx <= x -> 0 <= y -> x + nx * y < nx * ny ->
  exists i x' y', setInitialCoords s g [x; y] = Ok (setInitialPoints s [i]) /\ 0 <= i < nx * ny /\
    idx2coord (g_sh g) i = Ok [x'; y'] /\ in_box [nx; ny] [x'; y'] /\ x' < x /\ y < y'.
Proof.
  intros x y nx ny g s Hx Hy Hlt Hg Hs Hxn Hy0 Hin.
  set (dims := [nx; ny]).
  assert (EB : box_size dims = nx * ny) by (unfold dims; rewrite !box_size_cons; cbn; ring).
  assert (Hp : proper dims) by (repeat (constructor; [lia|]); constructor).
  destruct (idx_coord_bijection dims ltac:(cbn; lia) Hp ltac:(lia)) as [B _].
  destruct (B (x + nx * y) ltac:(nia)) as [cs [B1 [B2 B3]]].
  assert (E : exists x' y', cs = [x'; y']).
  { pose proof (in_box_length _ _ B2) as K. destruct cs as [|x' [|y' [|? ?]]]; try discriminate. eauto. }
  destruct E as [x' [y' ->]]. exists (x + nx * y), x', y'.
  assert (EC : cell_number dims [x'; y'] = x + nx * y) by (rewrite coord2idx_eq in B3 by (auto; try discriminate; lia); congruence).
  assert (Hc : coord2idx (g_sh g) [x; y] = Ok (x + nx * y)).
  { rewrite (proj1 Hg). fold dims. rewrite mk_shape_eq by (auto; lia). unfold coord2idx, dims. cbn.
    assert (EN : match nx with 0 => 0 | Z.pos p => Z.pos p | Z.neg p => Z.neg p end = nx) by (destruct nx; reflexivity). rewrite EN.
    unfold u32. assert (y * nx < 4294967296) by nia. rewrite (Z.mod_small (y * nx)) by nia. rewrite Z.mod_small by nia. f_equal. ring. }
  split; [unfold setInitialCoords; rewrite Hs, Hc; reflexivity|]. split; [nia|]. split; [rewrite (proj1 Hg); exact B1|]. split; [exact B2|].
  inversion B2 as [|? ? ? ? Bx B2']; subst. inversion B2' as [|? ? ? ? By B2'']; subst.
  unfold dims in EC. cbn [cell_number] in EC.
  assert (EC' : x' + nx * y' = x + nx * y) by lia. clear - EC' Bx Hxn Hx.
  assert (y < y') by nia. split; nia.
Qed.

(** before setEnvironment the grid pointer is garbage *)
Theorem C63_needs_a_grid : forall (g : grid N) a b,
  setInitialAndGoalCoords new_solver g a b = Fail UB /\ setInitialCoords new_solver g a = Fail UB.
Proof. intros. split; reflexivity. Qed.
End C63.

Example C63_case : in_box [5;4;3] [3;2;1] /\ in_box [5;4;3] [0;0;2] /\
  exists s', setInitialAndGoalCoords (mkSolver GSet false [] None) (new_grid [5;4;3] (n1 : F64)) [3;2;1] [0;0;2] = Ok s' /\ sv_init s' = [33] /\ sv_goal s' = Some 40.
Proof. split; [repeat (constructor; [lia|]); constructor|]. split; [repeat (constructor; [lia|]); constructor|]. eexists. split; [reflexivity|]. split; reflexivity. Qed.

(** ** C64: clear() *)
Lemma clean_free {N : Num} (g : grid N) i : free (clean g) i <-> free g i.
Proof.
  assert (K : forall c, getCell g i = Ok c -> exists c', getCell (clean g) i = Ok c' /\ c_occ c' = c_occ c).
  { intros c Hc. destruct (clean_spec g i c Hc) as [_ [_ [_ [_ [_ [c' [A [B _]]]]]]]]. eauto. }
  split; intros [c [Hc Ho]].
  - assert (Hr : 0 <= i < Z.of_nat (length (g_cells g))).
    { pose proof (getCell_range _ _ _ Hc) as R. unfold clean in R. destruct (negb (g_clean g)); [cbn [g_cells] in R; rewrite map_length in R|]; exact R. }
    destruct (vget_in_range (g_cells g) i Hr) as [c0 H0]. destruct (K c0 H0) as [c' [A B]]. assert (c' = c) by congruence. subst c'.
    exists c0. split; [exact H0|]. unfold isOccupied in *. rewrite <- B. exact Ho.
  - destruct (K c Hc) as [c' [A B]]. exists c'. split; [exact A|]. unfold isOccupied in *. rewrite B. exact Ho.
Qed.

Section C64.
Context {N : Num}.

(** FSM, LSM and DDQM: clear() forgets the points, so that compute() refuses to run *)
Theorem C64_clear_forgets_the_points :
  forall (g : grid N) fuel,
  (forall o, sv_grid (so_s o) = GSet -> fsm_compute fuel (fsm_clear o) g = Fail (Exit 1) /\ lsm_compute fuel (fsm_clear o) g = Fail (Exit 1)) /\
  (forall o, sv_grid (do_s o) = GSet -> ddqm_compute fuel (ddqm_clear o) g = Fail (Exit 1)) /\
  (forall s init goal, setInitialAndGoalPoints (solver_clear s) init goal = setInitialAndGoalPoints (mkSolver (sv_grid s) false [] None) init goal) /\
  forall s, sv_init (solver_clear s) = [] /\ goal_of (solver_clear s) = Ok noGoal.
Proof.
  intros g fuel.
  assert (E : forall s, sv_grid s = GSet -> solver_setup (solver_clear s) g = Fail (Exit 1)).
  { intros s Hs. unfold solver_setup, sanityChecks, solver_clear. cbn [sv_grid sv_init]. rewrite Hs. destruct (g_clean g); reflexivity. }
  split; [|split; [|split; [reflexivity|intros s; split; reflexivity]]].
  - intros o Ho. unfold fsm_compute, lsm_compute, sweep_compute, fsm_clear. cbn [so_s solver_clear sv_setup]. unfold fsm_setup. cbn [so_s].
    split; rewrite (E _ Ho); reflexivity.
  - intros o Ho. unfold ddqm_compute, ensure_setup. cbn [ddqm_clear do_s]. rewrite (E _ Ho). reflexivity.
Qed.

(** FMM (and FMM*, SFMM, ...), FIM and GMM: clear() keeps the points, the goal and the
    setup flag, so that compute() does not check or clean anything *)
Theorem C64_clear_keeps_the_problem :
  forall (HO : HeapOps N) (fo : fmm_obj HO) (io : fim_obj (N := N)) (go : gmm_obj (N := N)),
  fo_s (fmm_clear HO fo) = fo_s fo /\ io_s (fim_clear io) = io_s io /\ go_s (gmm_clear go) = go_s go.
Proof. intros. repeat split. Qed.

(** FMM*: clear() makes the next run compute the table of distances again; without it the
    table stays that of the map of the first run *)
Theorem C64_clear_forgets_the_distances :
  forall (HO : HeapOps N) (o : fmm_obj HO) (g : grid N) h k gc (d : list N),
  h <> NOHEUR -> goal_of (fo_s o) = Ok k -> s32 k <> -1 -> idx2coord (g_sh g) k = Ok gc -> precomputeDistances (g_sh g) = Ok d ->
  (exists o', fmm_setHeuristics HO (fmm_clear HO o) g h = Ok o' /\ fo_dist o' = d /\ fo_coord o' = gc /\ fo_strat o' = h) /\
  (fo_pre o = true -> exists o', fmm_setHeuristics HO o g h = Ok o' /\ fo_dist o' = fo_dist o /\ fo_coord o' = gc /\ fo_strat o' = h).
Proof.
  intros HO o g h k gc d Hh Hk Hn Hgc Hd.
  assert (K : forall o1 : fmm_obj HO, goal_of (fo_s o1) = Ok k -> fmm_setHeuristics HO o1 g h = if fo_pre o1 then Ok (mkFmm (fo_s o1) (fo_band o1) h (fo_dist o1) true gc) else Ok (mkFmm (fo_s o1) (fo_band o1) h d true gc)).
  { intros o1 H1. unfold fmm_setHeuristics. destruct h; [contradiction| |]; rewrite H1; cbn [bind]; (destruct (Z.eqb_spec (s32 k) (-1)); [contradiction|]); cbn [negb]; rewrite Hgc; cbn [bind]; rewrite Hd; reflexivity. }
  split; [|intros Hp]; rewrite K by exact Hk; [|rewrite Hp]; eexists; (split; [reflexivity|]); repeat split.
Qed.

(** ... and what it computes is not the problem it is given: after a complete run from [a],
    clear() and a new initial point [b] connected to [a], compute() sets the time of [b] to 0
    and leaves every other time as the run from [a] left it *)
Theorem C64_clear_then_new_point :
  forall (L : NumLaws N) (HO : HeapOps N) (HL : HeapLaws HO) dims (g : grid N) a b fuel fuel2 o g0 o1 g1,
  shape_ok dims -> grid_ok dims g -> flag_is_true g -> 0 <= a < box_size dims ->
  fmm_setEnvironment HO (fmm_new HO NOHEUR) (Some g) = Ok (o, g0) ->
  fmm_compute HO fuel (fmm_setPoints HO o [a] (-1)) g0 = Ok (o1, g1) ->
  reachable dims (eq a) (free g) b -> (2 <= fuel2)%nat ->
  exists o2 g2, fmm_compute HO fuel2 (fmm_setPoints HO (fmm_clear HO o1) [b] (-1)) g1 = Ok (o2, g2) /\
    time_is g2 b n0 /\ forall i, i <> b -> getArrivalTime g2 i = getArrivalTime g1 i.
Proof.
  intros L HO HL dims g a b fuel fuel2 o g0 o1 g1 Hsh Hg Hf Ha He Hc Hb Hfuel.
  pose proof Hsh as [H2 Hlt]. pose proof (dims2_proper' _ H2) as Hp.
  unfold fmm_setEnvironment, setEnvironment in He. cbn [bind] in He. injection He as <- <-.
  unfold fmm_compute in Hc. cbn [fmm_setPoints fmm_with_solver fmm_new fo_s setInitialAndGoalPoints sv_setup new_solver] in Hc.
  apply bind_ok in Hc. destruct Hc as [[oa ga] [Ha' Hc]].
  destruct (fmm_setup_cases _ _ _ _ _ Ha') as [s1 [kk [Hs1 [Hk Hcs]]]]. pose proof (solver_setup_ok _ _ _ _ Hs1) as [Es1 [Eg1 _]].
  cbn [fo_s fo_strat fo_band fo_dist fo_pre fo_coord sv_grid sv_init sv_goal] in *.
  destruct Hcs as [[_ ->]|[[K _]|[K _]]]; [|exfalso; apply K; reflexivity|exfalso; apply K; reflexivity].
  cbn [fo_s fo_strat fo_band fo_dist fo_pre fo_coord] in Hc. rewrite Hk in Hc. cbn [bind] in Hc.
  assert (Ekk : kk = noGoal) by (rewrite Es1 in Hk; cbn in Hk; injection Hk as <-; reflexivity). subst kk.
  apply bind_ok in Hc. destruct Hc as [[st log] [Hrun Hc]]. injection Hc as <- <-.
  assert (Ei : sv_init s1 = [a]) by (rewrite Es1; reflexivity). rewrite Ei in Hrun.
  assert (Hga : grid_ok dims ga /\ (forall i c, getCell ga i = Ok c -> c_state c = OPEN) /\ forall i, free ga i <-> free g i).
  { subst ga. split; [exact (clean_ok dims g Hg)|]. split.
    - intros i c Hi. exact (proj1 (proj2 (clean_default g Hf i c Hi))).
    - intros i. exact (clean_free g i). }
  destruct Hga as [Gga [Oga Fga]].
  change (fmm_run HO fuel (no_heur (N := N)) noGoal [a] ga (hempty HO) = Ok (st, log)) in Hrun.
  destruct (quiet_run L HO HL dims H2 Hlt no_heur [a] (or_introl eq_refl) noGoal fuel ga st log Gga) as [I [R [F E]]].
  { repeat constructor. intros []. }
  { intros i [<-|[]]. exact Ha. }
  { exact Oga. }
  { right; eauto. }
  { exact Hrun. }
  assert (Heh : helems HO (fs_h st) = []).
  { destruct E as [E|[r ->]]; [exact E|exfalso]. pose proof (si_rng _ _ _ _ _ _ _ I noGoal ltac:(apply in_or_app; right; left; reflexivity)) as K. unfold noGoal in K. lia. }
  pose proof (full_run_log HO HL dims [a] _ _ _ ga I R Heh) as HL'.
  assert (RR : forall i, reachable dims (eq a) (free g) i -> In i log).
  { intros i K. apply HL'. induction K as [i <-|i j K IH Hadj Hfj]; [apply reach_src; left; reflexivity|]. eapply reach_step; [exact IH|exact Hadj|]. apply Fga, Hfj. }
  pose proof (RR b Hb) as Hbl. pose proof (si_grid _ _ _ _ _ _ _ I) as Gst.
  assert (Hrb : 0 <= b < box_size dims) by (apply (si_rng _ _ _ _ _ _ _ I), in_or_app; right; exact Hbl).
  (* the second run *)
  unfold fmm_compute. cbn [fmm_clear fmm_setPoints fmm_with_solver fo_s fo_strat fo_band fo_dist fo_pre fo_coord setInitialAndGoalPoints sv_setup sv_init sv_goal sv_grid].
  assert (Esu : sv_setup s1 = true) by (rewrite Es1; reflexivity). rewrite Esu. cbn [bind goal_of sv_goal fo_s].
  change (u32 (-1)) with noGoal. cbn [sv_init fo_s fo_strat fo_dist fo_coord fo_band].
  assert (W : exists st2 log2, fmm_run HO fuel2 (mkCfg NOHEUR ([] : list N) []) noGoal [b] (fs_g st) (hempty HO) = Ok (st2, log2) /\
      time_is (fs_g st2) b n0 /\ forall i, i <> b -> getArrivalTime (fs_g st2) i = getArrivalTime (fs_g st) i).
  { destruct (getCell_in dims (fs_g st) b Gst Hrb) as [cb Hcb].
    destruct (updCell_in (fs_g st) b cb (fun c => with_val c n0) Hcb) as [ga1 Hg1]. change (setArrivalTime (fs_g st) b n0 = Ok ga1) in Hg1.
    unfold fmm_run. cbn [foldM]. unfold fmm_init1 at 1. cbn [fs_g fs_h]. rewrite Hg1. cbn [bind fmm_heur fc_strat].
    destruct (hl_empty HO HL) as [W0 E0]. destruct (hl_push HO HL (key ga1) b (hempty HO) W0 ltac:(rewrite E0; intros [])) as [W1 P1]. rewrite E0 in P1.
    set (h1 := hpush HO (key ga1) b (hempty HO)) in *.
    destruct fuel2 as [|[|fuel2]]; [lia|lia|]. cbn [fmm_loop]. unfold fmm_step at 1. cbn [fs_g fs_h].
    destruct (hpop HO (key ga1) h1) as [[m h2]|] eqn:Ep.
    2:{ apply (hl_pop_none HO HL _ _ W1) in Ep. rewrite Ep in P1. apply Permutation_nil in P1. discriminate. }
    destruct (hl_pop HO HL _ _ _ _ W1 Ep) as [W2 P2].
    assert (Em : m = b /\ helems HO h2 = []).
    { assert (Q : Permutation [b] (m :: helems HO h2)) by (rewrite <- P1; exact P2). apply Permutation_length_1_inv in Q. injection Q as -> Q. auto. }
    destruct Em as [-> Eh2].
    assert (Gg1 : grid_ok dims ga1) by exact (updCell_grid_ok _ _ _ _ _ Hg1 Gst).
    rewrite (proj1 Gg1), getNeighbors_eq by assumption. cbn [bind].
    destruct (getCell_in dims ga1 b Gg1 Hrb) as [cb1 Hcb1].
    destruct (updCell_in ga1 b cb1 (fun c => with_state c FROZEN) Hcb1) as [g2 Hg2]. change (setState ga1 b FROZEN = Ok g2) in Hg2.
    rewrite Hg2. cbn [bind]. assert (Gg2 : grid_ok dims g2) by exact (updCell_grid_ok _ _ _ _ _ Hg2 Gg1).
    assert (Hns : forall ns, (forall j, In j ns -> adjacent dims b j) -> foldM (fmm_neighbor HO (mkCfg NOHEUR ([] : list N) [])) ns (mkFst g2 h2) = Ok (mkFst g2 h2)).
    { induction ns as [|j ns IHn]; intros Hj; cbn [foldM]; [reflexivity|]. unfold fmm_neighbor at 1. cbn [fs_g].
      pose proof (Hj j (or_introl eq_refl)) as Haj. assert (Hrj : 0 <= j < box_size dims) by apply (adjacent_range _ _ _ Haj).
      destruct (getCell_in dims (fs_g st) j Gst Hrj) as [cj Hcj].
      assert (Hjb : j <> b) by (intros ->; exact (adjacent_irrefl _ _ Haj)).
      assert (Hcj2 : getCell g2 j = Ok cj).
      { rewrite (updCell_get _ _ _ _ j Hg2), (updCell_get _ _ _ _ j Hg1). destruct (Z.eqb_spec b j); [congruence|exact Hcj]. }
      rewrite Hcj2. cbn [bind].
      assert (ES : fmstate_eqb (c_state cj) FROZEN || isOccupied cj = true).
      { destruct (isOccupied cj) eqn:Eo; [apply orb_true_r|]. rewrite orb_false_r. apply eqb_state.
        apply (si_frozen _ _ _ _ _ _ _ I j cj Hcj). apply RR. eapply reach_step; [exact Hb|exact Haj|]. apply Fga.
        apply (free_frame ga (fs_g st) j F). exists cj. auto. }
      rewrite ES. cbn [bind]. apply IHn. intros k Hk'. apply Hj. right; exact Hk'. }
    rewrite Hns by (intros j Hj; apply nbrs_spec in Hj; auto). cbn [bind].
    assert (Hbg : b =? noGoal = false) by (apply Z.eqb_neq; unfold noGoal; lia). rewrite Hbg.
    unfold fmm_step. cbn [fs_g fs_h]. rewrite (proj2 (hl_pop_none HO HL (key g2) h2 W2) Eh2). cbn [bind].
    eexists _, _. split; [reflexivity|]. cbn [fs_g]. split.
    - unfold time_is, getArrivalTime. rewrite (updCell_get _ _ _ _ b Hg2), (updCell_get _ _ _ _ b Hg1), Z.eqb_refl, Hcb. reflexivity.
    - intros i Hi. unfold getArrivalTime. rewrite (updCell_get _ _ _ _ i Hg2), (updCell_get _ _ _ _ i Hg1).
      destruct (Z.eqb_spec b i); [congruence|reflexivity]. }
  destruct W as [st2 [log2 [W1 [W2 W3]]]]. match goal with |- context [goal_of ?x] => change (goal_of x) with (Ok noGoal : res Z) end. cbn [bind]. match goal with |- context [fmm_run HO fuel2 ?c ?k ?i ?gg ?h] => change (fmm_run HO fuel2 c k i gg h) with (fmm_run HO fuel2 (mkCfg NOHEUR ([] : list N) []) noGoal [b] (fs_g st) (hempty HO)) end. rewrite W1. cbn [bind]. eexists _, _. split; [reflexivity|]. split; [exact W2|exact W3].
Qed.

(** UFMM: clear() frees the queue; every later use of the object, its destruction included,
    is undefined *)
Theorem C64_ufmm_unusable_after_clear :
  forall (o : ufmm_obj (N := N)) fuel g, exists o', ufmm_clear (Some o) = Ok o' /\
    ufmm_live_compute fuel o' g = Fail UB /\ ufmm_live_reset o' g = Fail UB /\ ufmm_clear o' = Fail UB /\ ufmm_destroy o' = Fail UB.
Proof. intros. exists None. repeat split. Qed.

(** FM2: after clear() compute() always refuses, whatever points are set; setEnvironment,
    reset and the destructor use freed memory *)
Theorem C64_fm2_unusable_after_clear :
  forall (HO : HeapOps N) (o : fm2_obj HO), sv_grid (f2_s o) = GSet ->
  exists m, fm2_clear HO (mkMem o true) = Ok m /\
    (forall fuel g, fm2_mem_compute HO fuel m g = Fail (Exit 1)) /\
    (forall dims fuel g init goal, proper dims -> box_size dims < 4294967296 -> grid_ok dims g ->
       (forall i, In i init -> 0 <= i < box_size dims) -> goal = -1 \/ 0 <= goal < box_size dims ->
       fm2_mem_compute HO fuel (fm2_mem_setPoints HO m init goal) g = Fail (Exit 1)) /\
    (forall g, fm2_mem_setEnvironment HO m g = Fail UB) /\ (forall g, fm2_mem_reset HO m g = Fail UB) /\
    fm2_clear HO m = Fail UB /\ fm2_destroy HO m = Fail UB.
Proof.
  intros HO o Ho. eexists. split; [reflexivity|]. split; [|split; [|repeat split]].
  - intros fuel g. unfold fm2_mem_compute. cbn [fm_obj f2_s solver_clear sv_setup]. unfold fm2_setup. cbn [f2_s].
    unfold solver_setup, sanityChecks. unfold solver_clear; cbn [sv_grid sv_init f2_s fm_obj]. rewrite Ho. destruct (g_clean g); reflexivity.
  - intros dims fuel g init goal Hp Hlt Hg Hin Hgoal. unfold fm2_mem_compute. cbn [fm2_mem_setPoints fm_obj fm2_setPoints f2_s setInitialAndGoalPoints solver_clear sv_setup].
    unfold fm2_setup. cbn [f2_s f2_sources].
    destruct (C38_setup_decides dims g (solver_clear (f2_s o)) init goal Hp Hlt Hg Ho Hin Hgoal) as [code [_ [_ [A B]]]].
    match goal with |- context [solver_setup ?x g] => change (solver_setup x g) with (solver_setup (setInitialAndGoalPoints (solver_clear (f2_s o)) init goal) g) end.
    destruct (Z.eq_dec code 0) as [E|E]; [|rewrite (A E); reflexivity].
    destruct (B E) as [s'' [-> _]]. cbn [bind]. destruct (1 <? Z.of_nat (length (sv_init s''))); reflexivity.
Qed.

(** before clear() the object is alive: its methods are those of FM2, and each leaves it alive,
    so that it can be cleared or destroyed once *)
Theorem C64_fm2_alive_until_clear :
  forall (HO : HeapOps N) (o : fm2_obj HO),
  (forall env, fm2_mem_setEnvironment HO (mkMem o true) env = match fm2_setEnvironment HO o env with Ok (o', g') => Ok (mkMem o' true, g') | Fail e => Fail e end) /\
  (forall g, fm2_mem_reset HO (mkMem o true) g = match fm2_reset HO o g with Ok (o', g') => Ok (mkMem o' true, g') | Fail e => Fail e end) /\
  (forall fuel g, fm2_mem_compute HO fuel (mkMem o true) g = match fm2_compute HO fuel o g with Ok (o', g') => Ok (mkMem o' true, g') | Fail e => Fail e end) /\
  (forall init goal, fm2_mem_setPoints HO (mkMem o true) init goal = mkMem (fm2_setPoints HO o init goal) true) /\
  exists m, fm2_destroy HO (mkMem o true) = Ok m.
Proof.
  intros HO o. split; [|split; [|split; [|split; [reflexivity|eexists; reflexivity]]]].
  - intros env. unfold fm2_mem_setEnvironment. cbn [fm_alive fm_obj]. destruct (fm2_setEnvironment HO o env) as [[o' g']|]; reflexivity.
  - intros g. unfold fm2_mem_reset. cbn [fm_alive fm_obj]. destruct (fm2_reset HO o g) as [[o' g']|]; reflexivity.
  - intros fuel g. unfold fm2_mem_compute. cbn [fm_alive fm_obj]. unfold fm2_compute, fm2_internal.
    destruct (sv_setup (f2_s o)) eqn:Es.
    + cbn [bind]. rewrite Es. cbn [bind]. match goal with |- bind ?x _ = _ => destruct x as [[o' g']|]; reflexivity end.
    + destruct (fm2_setup HO o g) as [[o1 g1]|] eqn:E; cbn [bind]; [|reflexivity].
      assert (E1 : sv_setup (f2_s o1) = true).
      { unfold fm2_setup in E. apply bind_ok in E. destruct E as [[s1 g2] [E1 E2]]. unfold solver_setup in E1. apply bind_ok in E1. destruct E1 as [err [_ E1]].
        destruct (negb (err =? 0)); [discriminate|]. injection E1 as <- <-. destruct (1 <? _); [discriminate|]. destruct (f2_sources o); [discriminate|]. injection E2 as <- <-. reflexivity. }
      rewrite E1. cbn [bind]. match goal with |- bind ?x _ = _ => destruct x as [[o' g']|]; reflexivity end.
Qed.
End C64.

(** a case: 3x2 map, runs from 0 and, after clear(), from 5: the time of cell 0 stays 0 *)
Example C64_case : let g := (new_grid [3;2] n1 : grid F64) in
  shape_ok [3;2] /\ grid_ok [3;2] g /\ flag_is_true g /\ reachable [3;2] (eq 0) (free g) 5 /\
  match '(o, g0) <- fmm_setEnvironment RefHeap (fmm_new RefHeap NOHEUR) (Some g) ;;
        '(o1, g1) <- fmm_compute RefHeap 50 (fmm_setPoints RefHeap o [0] (-1)) g0 ;;
        '(o2, g2) <- fmm_compute RefHeap 50 (fmm_setPoints RefHeap (fmm_clear RefHeap o1) [5] (-1)) g1 ;;
        t0 <- getArrivalTime g2 0 ;; t5 <- getArrivalTime g2 5 ;; Ok (neqb t0 n0 && neqb t5 n0) with Ok b => b | Fail _ => false end = true.
Proof.
  cbv zeta. split; [split; [repeat (constructor; [lia|]); constructor|vm_compute; discriminate]|].
  split; [split; reflexivity|]. split.
  { intros _ i c Hc. unfold getCell in Hc. apply vget_ok in Hc; destruct Hc as [_ Hc]; apply nth_error_In in Hc. cbn in Hc. repeat (destruct Hc as [<-|Hc]; [repeat split; reflexivity|]). destruct Hc. }
  split; [|vm_compute; reflexivity].
  assert (FR : forall i, 0 <= i < 6 -> free (new_grid [3;2] (n1 : F64)) i).
  { intros i Hi. assert (K : In i [0;1;2;3;4;5]) by (cbn; lia). cbn in K. repeat (destruct K as [<-|K]; [eexists; split; reflexivity|]). destruct K. }
  assert (AD : forall i j, In j (nbrs [3;2] i) -> 0 <= i < 6 -> adjacent [3;2] i j).
  { intros i j Hj Hi. apply nbrs_spec; auto. repeat (constructor; [lia|]); constructor. }
  apply (reach_step _ _ _ 2); [|apply AD; [cbn; auto 10|lia]|apply FR; lia].
  apply (reach_step _ _ _ 1); [|apply AD; [cbn; auto 10|lia]|apply FR; lia].
  apply (reach_step _ _ _ 0); [|apply AD; [cbn; auto 10|lia]|apply FR; lia]. apply reach_src. reflexivity.
Qed.

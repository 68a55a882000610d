(** Prop_FM2Float.v - property theorem C85: Fast Marching Square in IEEE doubles. *)
From Coq Require Import Reals Lra Psatz.
From Flocq Require Import Core IEEE754.BinarySingleNaN.
From Verif Require Import Base BaseFacts Num NumXR NumF64 NumLaws Grid GridFacts GridUpd GridMore Spec Obs Eikonal
  FMMModel HeapRef HeapLaws Frame FMMStruct FMMReach EikR Solution XGrid FMMAbs Relax Exact Examples SolverModel Lifecycle FM2Model FM2Facts
  FloatOps FloatUpd FloatAbs FloatGrid FloatSweep FloatFMM DaryModel DaryHeap FibModel FibHeap
  Prop_FMM Prop_Solver Prop_Clear Prop_Bound Prop_Heap Prop_Float Prop_FM2 Prop_FM2Obj.
Open Scope Z_scope.

(** ** Specification *)

(** a map of doubles for FM2: flagged clean and clean; its list of occupied cells (as the map
    loaders fill it, C44) holds exactly the obstacles, at least two of them *)
Definition fm2_map64 dims (g : grid F64) : Prop :=
  g_clean g = true /\ double_problem dims g (g_obs g) /\ (forall i, In i (g_obs g) <-> obstacle g i) /\ (2 <= length (g_obs g))%nat.

(** no free cell is slower than this *)
Definition velocity_floor dims (flo fhi : R) : R := (flo / (2 * INR (length dims) * fhi * IZR (box_size dims)))%R.

(** the velocities [gv] holds are the normalised times of a wave from the obstacles of [g]:
    between 0 and 1, 0 at the obstacles, 1 somewhere, at least [velocity_floor] at the free
    cells, and, where the exact times [X] from the obstacles have maximum [xm], within the
    error bounds of C77 of the quotient x / xm *)
Definition velocities64 dims (g : grid F64) (flo fhi : R) (gv : grid F64) : Prop :=
  grid_ok dims gv /\ g_leaf gv = g_leaf g /\
  (forall i, 0 <= i < box_size dims -> exists c v, getCell gv i = Ok c /\ denotes (c_occ c) v /\ (0 <= v <= 1)%R /\
     (obstacle g i -> v = 0%R) /\ (free g i -> velocity_floor dims flo fhi <= v)%R) /\
  (exists i c, getCell gv i = Ok c /\ denotes (c_occ c) 1) /\
  (forall X xm i c v x, exact_for dims g (g_obs g) X xm -> (exists k, X k = Some xm) ->
     (err_below dims flo fhi xm < 1)%R -> (err_above dims flo fhi xm <= 1)%R ->
     getCell gv i = Ok c -> denotes (c_occ c) v -> X i = Some x ->
     let lo := ((1 - err_below dims flo fhi xm) / (1 + err_above dims flo fhi xm))%R in
     ((1 - / 2 ^ 53) * lo * (x / xm) <= v <= (1 + / 2 ^ 53) * (/ lo) * (x / xm))%R).

(** the times [g'] holds are those of a wave from [goal] over the velocities it holds, and the
    one of [s] is accurate *)
Definition second_wave64 dims (g' : grid F64) (s goal : Z) : Prop :=
  forall flo fhi X Xm, within_resolution dims g' flo fhi -> exact_for dims g' [goal] X Xm ->
  (forall i d, time_is g' i d -> d = ninf \/
     exists t x, denotes d t /\ (0 <= t <= 9 / 8 * fhi * IZR (box_size dims))%R /\ X i = Some x /\ ((1 - err_below dims flo fhi Xm) * x <= t)%R) /\
  (forall x, (err_above dims flo fhi Xm <= 1)%R -> X s = Some x -> exists d t, time_is g' s d /\ denotes d t /\
     ((1 - err_below dims flo fhi Xm) * x <= t <= (1 + err_above dims flo fhi Xm) * x)%R).

(** ** proofs: real numbers *)
Lemma US_upper l x : (forall m, In m l -> 0 <= m)%R -> (0 <= x)%R -> (upwind_sum l x <= INR (length l) * (x * x))%R.
Proof.
  intros Hl Hx. induction l as [|m l IH]; [cbn; lra|]. rewrite US_cons. cbn [length]. rewrite S_INR.
  specialize (IH (fun m' K => Hl m' (or_intror K))). specialize (Hl m (or_introl eq_refl)).
  assert (K : (0 <= Rmax (x - m) 0 <= x)%R) by (split; [apply Rmax_r|apply Rmax_lub; lra]).
  assert (Rsqr (Rmax (x - m) 0) <= x * x)%R by (unfold Rsqr; nra). lra.
Qed.

Lemma exact_floor dims init (fr : Z -> Prop) (f : Z -> R) X i x flo : proper dims -> (0 < flo)%R -> (forall i, fr i -> flo <= f i)%R ->
  exact_solution dims (fun i => In i init) fr f X -> X i = Some x -> ~ In i init -> (1 <= INR (length dims))%R /\ (flo <= INR (length dims) * x)%R.
Proof.
  intros Hp Hflo Hf HX Hx Hi.
  destruct (exact_ms dims init fr f Hp X HX i x Hx Hi) as [Hir [Hfi He]]. pose proof (Hf i Hfi) as Hfl.
  pose proof (ex_nonneg _ _ _ _ _ HX i x Hx) as Hx0. pose proof (dmins_length dims X i) as Hl.
  assert (Hpos : forall m, In m (somes (dmins dims X i)) -> (0 <= m)%R).
  { intros m Hm. apply in_somes, in_dmins in Hm. destruct Hm as [d [Hd Hm]]. pose proof (dmin_spec dims X i d Hp Hir Hd) as K.
    rewrite <- Hm in K. destruct K as [[k [_ Kx]] _]. exact (ex_nonneg _ _ _ _ _ HX k m Kx). }
  pose proof (US_upper _ x Hpos Hx0) as U. rewrite He in U.
  assert (N1 : (1 <= INR (length dims))%R).
  { destruct (somes (dmins dims X i)) as [|m l] eqn:E; [cbn [length INR] in U; nra|]. cbn [length] in Hl. rewrite S_INR in Hl. pose proof (pos_INR (length l)). lra. }
  split; [exact N1|]. set (n := INR (length dims)) in *.
  assert (K : (flo * flo <= n * (x * x))%R). { eapply Rle_trans; [|eapply Rle_trans; [exact U|apply Rmult_le_compat_r; nra]]. nra. }
  assert (flo * flo <= (n * x) * (n * x))%R by nra. assert (0 <= n * x)%R by nra. nra.
Qed.

(** the error below, when the exact times are bounded as in C76 *)
Lemma err_below_small dims g flo fhi : (1 <= IZR (box_size dims))%R -> within_resolution dims g flo fhi ->
  (err_below dims flo fhi (fhi * IZR (box_size dims)) <= 3 / 16)%R.
Proof.
  intros Hb [H1 [H2 [_ H]]]. unfold err_below. set (b := IZR (box_size dims)) in *. set (n4 := (INR (length dims) ^ 4)%R) in *.
  assert (N4 : (0 <= n4)%R) by (apply pow_le, pos_INR).
  replace (96 * n4 * ((fhi * b + fhi) / flo) ^ 2 / 2 ^ 53)%R with ((96 * n4 * (((b + 1) * fhi) ^ 2)) / (2 ^ 53 * flo ^ 2))%R by (field; lra).
  assert (D : (0 < 2 ^ 53 * flo ^ 2)%R) by nra.
  apply (Rmult_le_reg_r (2 ^ 53 * flo ^ 2)); [exact D|]. unfold Rdiv at 1. rewrite Rmult_assoc, Rinv_l, Rmult_1_r by lra.
  assert (K : (((b + 1) * fhi) ^ 2 <= ((b + 3) * fhi) ^ 2)%R) by (apply pow_incr; nra).
  assert (n4 * ((b + 1) * fhi) ^ 2 <= n4 * ((b + 3) * fhi) ^ 2)%R by (apply Rmult_le_compat_l; assumption).
  lra.
Qed.

(** the floor is well above the occupancy threshold *)
Lemma floor_margin dims g flo fhi : (1 <= IZR (box_size dims))%R -> (1 <= INR (length dims))%R -> (0 < fhi)%R -> within_resolution dims g flo fhi ->
  (2 * Rmargin <= velocity_floor dims flo fhi)%R /\ (/ 2 ^ 30 <= velocity_floor dims flo fhi)%R.
Proof.
  intros Hb Hn Hfh [H1 [H2 [_ H]]]. unfold velocity_floor. set (b := IZR (box_size dims)) in *. set (n := INR (length dims)) in *.
  assert (D : (0 < 2 * n * fhi * b)%R) by (repeat (apply Rmult_lt_0_compat; try lra)).
  assert (K : (/ 2 ^ 27 * (2 * n * fhi * b) <= flo)%R).
  { set (q := (n * fhi * b)%R) in *. assert (Hq : (0 <= q)%R) by (unfold q; repeat (apply Rmult_le_pos; try lra)).
    assert (Q : (q * q <= n ^ 4 * ((b + 3) * fhi) ^ 2)%R).
    { replace (q * q)%R with (n ^ 2 * (b * fhi) ^ 2)%R by (unfold q; ring). apply Rmult_le_compat; [apply pow_le; lra|apply pow_le; nra| |apply pow_incr; nra].
      replace (n ^ 4)%R with (n ^ 2 * n ^ 2)%R by ring. assert (1 <= n ^ 2)%R by nra. nra. }
    assert (Q2 : (512 * (q * q) <= 2 ^ 53 * (flo * flo))%R) by (eapply Rle_trans; [|eapply Rle_trans; [exact H|right; ring]]; nra).
    assert (Q3 : (/ 2 ^ 27 * (2 * n * fhi * b) = / 2 ^ 26 * q)%R) by (unfold q; field). rewrite Q3.
    assert (Q4 : ((/ 2 ^ 26 * q) * (/ 2 ^ 26 * q) <= flo * flo)%R) by nra.
    assert (0 <= / 2 ^ 26 * q)%R by nra. nra. }
  assert (K2 : (/ 2 ^ 27 <= flo / (2 * n * fhi * b))%R).
  { apply (Rmult_le_reg_r (2 * n * fhi * b)); [exact D|]. revert D K. generalize (2 * n * fhi * b)%R as q. intros q D K.
    replace (flo / q * q)%R with flo by (field; lra). exact K. }
  split; (eapply Rle_trans; [|exact K2]); unfold Rmargin; lra.
Qed.

(** ** proofs: the first wave and the velocities *)
Lemma sep_obstacles {N : Num} dims (g : grid N) init : (forall i, In i init -> obstacle g i) -> separated dims g init.
Proof. intros H i j _ Hj _ [c [Hc Ho]]. destruct (H j Hj) as [c' [Hc' Ho']]. congruence. Qed.

Lemma maxValue_F (g : grid F64) : (forall c, In c (g_cells g) -> exists r, Fin (c_val c) r /\ (0 <= r)%R) ->
  exists M, Fin (getMaxValue g) M /\ (0 <= M)%R /\ (forall c r, In c (g_cells g) -> Fin (c_val c) r -> (r <= M)%R) /\
    (M = 0%R \/ exists c, In c (g_cells g) /\ Fin (c_val c) M).
Proof.
  unfold getMaxValue. intros H.
  assert (K : forall (l : list (cell F64)) (m0 : F64) (m : R), Fin m0 m -> (forall c, In c l -> exists r, Fin (c_val c) r /\ (0 <= r)%R) -> (0 <= m)%R ->
    exists M, Fin (fold_left (fun m c => if negb (nisinf (c_val c)) && nltb m (c_val c) then c_val c else m) l m0) M /\ (m <= M)%R /\
      (forall c r, In c l -> Fin (c_val c) r -> (r <= M)%R) /\ (M = m \/ exists c, In c l /\ Fin (c_val c) M)).
  { induction l as [|c l IH]; intros m0 m Hm0 Hl Hm; cbn [fold_left].
    - exists m. split; [exact Hm0|]. split; [lra|]. split; [intros c r []|auto].
    - destruct (Hl c (or_introl eq_refl)) as [r [Er Hr]].
      assert (EC : (negb (nisinf (c_val c)) && nltb m0 (c_val c)) = Rltb m r).
      { rewrite f64_inf_toX, (Fin_toX _ _ Er). cbn [negb andb]. rewrite lt_toX, (Fin_toX _ _ Er), (Fin_toX _ _ Hm0). reflexivity. }
      rewrite EC. unfold Rltb.
      assert (Hl' : forall c, In c l -> exists r, Fin (c_val c) r /\ (0 <= r)%R) by (intros c' Hc'; apply Hl; right; exact Hc').
      destruct (Rlt_dec m r) as [Hlt|Hge].
      + destruct (IH (c_val c) r Er Hl' Hr) as [M [E [A [B C]]]]. exists M. split; [exact E|]. split; [lra|]. split.
        * intros c' r' [<-|Hc'] E'; [|exact (B c' r' Hc' E')]. rewrite <- (Fin_unique _ _ _ Er E'). exact A.
        * right. destruct C as [->|[c' [C1 C2]]]; [exists c; split; [left; reflexivity|exact Er]|exists c'; split; [right; exact C1|exact C2]].
      + destruct (IH m0 m Hm0 Hl' Hm) as [M [E [A [B C]]]]. exists M. split; [exact E|]. split; [lra|]. split.
        * intros c' r' [<-|Hc'] E'; [|exact (B c' r' Hc' E')]. rewrite <- (Fin_unique _ _ _ Er E'). lra.
        * destruct C as [->|[c' [C1 C2]]]; [left; reflexivity|right; exists c'; split; [right; exact C1|exact C2]]. }
  destruct (K (g_cells g) (n0 : F64) 0%R Fz0 H ltac:(lra)) as [M [E [A [B C]]]]. exists M.
  split; [exact E|]. auto.
Qed.

Lemma dp_clean dims (g : grid F64) b init : double_problem dims g init -> double_problem dims (setClean g b) init.
Proof. intros H. exact H. Qed.
Lemma wr_clean dims (g : grid F64) b flo fhi : within_resolution dims g flo fhi -> within_resolution dims (setClean g b) flo fhi.
Proof. intros H. exact H. Qed.
Lemma ef_clean dims (g : grid F64) b init X Xm : exact_for dims g init X Xm -> exact_for dims (setClean g b) init X Xm.
Proof. intros H. exact H. Qed.

Section FM2.
Context (HO : HeapOps F64) (HL : HeapLaws HO).

(** an inner solver that has never run, or was reset *)
Definition inner_new64 (i : fmm_obj HO) : Prop := sv_grid (fo_s i) = GSet /\ sv_setup (fo_s i) = false /\ fo_band i = hempty HO /\ fo_strat i = NOHEUR.

Lemma first_wave64 dims (g : grid F64) (i0 : fmm_obj HO) flo fhi fuel :
  double_problem dims g (g_obs g) -> within_resolution dims g flo fhi -> (2 <= length (g_obs g))%nat -> (forall i, In i (g_obs g) <-> obstacle g i) -> inner_new64 i0 ->
  box_size dims < Z.of_nat fuel ->
  exists st log, fmm_outcome HO no_heur noGoal (g_obs g) (setClean g false) fuel st log /\
    fmm_compute HO fuel (fmm_setPoints HO i0 (g_obs g) (-1)) (setClean g true) =
      Ok (mkFmm (mkSolver GSet true (g_obs g) (Some (u32 (-1)))) (fs_h st) NOHEUR (fo_dist i0) (fo_pre i0) (fo_coord i0), fs_g st) /\
    SInv HO HL dims (g_obs g) (fs_g st) (fs_h st) log /\ frame (fun i => In i (g_obs g)) (setClean g false) (fs_g st) /\ times_ok64 (fs_g st) /\
    (forall i c, getCell (fs_g st) i = Ok c -> c_h c = n0) /\ hord HL (key (fs_g st)) (fs_h st) /\ helems HO (fs_h st) = [] /\
    FSup dims (g_obs g) (free g) fhi (times64 (fs_g st)) /\
    (forall i, 0 <= i < box_size dims -> times64 (fs_g st) i <> None).
Proof.
  intros HP HW Hl Hob [I1 [I2 [I3 I4]]] Hfuel. pose proof HP as [Hsh [_ [[_ Hr] _]]]. pose proof HW as [Hflo [Hfh _]].
  pose proof HP as [[H2 Hlt] [[Hg Hc] [[Hnd _] _]]]. pose proof (dims2_proper' _ H2) as Hp.
  assert (Hsep : separated dims (setClean g false) (g_obs g)) by (apply sep_obstacles; intros i Hi; apply (proj1 (Hob i) Hi)).
  destruct (C76_exact_solution_exists dims g (g_obs g) flo fhi HP HW) as [X HE]. destruct (exact_for_slow _ _ _ _ _ HP HE) as [HX HXm].
  destruct (run_F HO HL dims H2 Hlt no_heur eq_refl (g_obs g) Hnd Hr (setClean g false) Hg (dp_range _ _ _ HP) Hc Hsep flo fhi Hflo Hfh
    (wr_bounds _ _ _ _ _ HP HW) (wr_small _ _ _ _ Hp HW) X HX _ HXm noGoal fuel) as [st [log [A [XS [HD Hend]]]]].
  { pose proof (box_size_pos _ Hp); lia. }
  exists st, log. split; [exact A|].
  pose proof (xs_s _ _ _ _ _ _ _ _ XS) as SI.
  assert (He : helems HO (fs_h st) = []).
  { destruct Hend as [He|[r ->]]; [exact He|]. exfalso. pose proof (si_rng _ _ _ _ _ _ _ SI noGoal) as K.
    assert (K' : 0 <= noGoal < box_size dims) by (apply K; apply in_or_app; right; left; reflexivity). unfold noGoal in K'. lia. }
  split; [|split; [exact SI|]].
  - destruct i0 as [[sg ss si sk] band strat dist pre coord]. cbn [fo_s sv_grid sv_setup fo_band fo_strat] in I1, I2, I3, I4. subst sg ss band strat.
    unfold fmm_compute, fmm_setPoints, fmm_with_solver, setInitialAndGoalPoints. cbn [fo_s sv_setup sv_grid]. unfold fmm_setup, solver_setup.
    cbn [fo_s sv_setup sv_grid sv_init sv_goal fo_strat fo_band fo_dist fo_pre fo_coord].
    rewrite (sanity_no_goal_any dims); [|exact Hsh|reflexivity|reflexivity|left; exact Hl|exact Hr|reflexivity]. cbn [bind Z.eqb negb].
    cbn [fmm_setHeuristics bind goal_of sv_goal fo_strat fmm_with_solver fo_s sv_init fo_band fo_dist fo_pre fo_coord].
    rewrite fmm_run_noheur by reflexivity.
    change (setClean (setClean g true) false) with (setClean g false). change (u32 (-1)) with noGoal. rewrite A. reflexivity.
  - split; [exact (xs_frame _ _ _ _ _ _ _ _ XS)|]. split; [exact (xs_tok _ _ _ _ _ _ _ _ XS)|]. split; [exact (xs_h _ _ _ _ _ _ _ _ XS)|].
    split; [exact (xs_ord _ _ _ _ _ _ _ _ XS)|]. split; [exact He|]. split; [exact (fh_s _ _ _ _ _ _ _ _ _ _ HD)|].
    intros i Hi. apply (proj2 (fh_t _ _ _ _ _ _ _ _ _ _ HD i)). right.
    assert (Hq : (forall i, In i (g_obs g) -> ~ free (setClean g false) i) \/ (exists s, g_obs g = [s])).
    { left. intros k Hk [c0 [E1 E2]]. destruct (proj1 (Hob k) Hk) as [c1 [E3 E4]]. change (getCell (setClean g false) k) with (getCell g k) in E1. congruence. }
    destruct (quiet_run F64_laws HO HL dims H2 Hlt no_heur (g_obs g) (or_introl eq_refl) noGoal fuel (setClean g false) st log Hg Hnd Hr
      (fun i c K => proj1 (proj2 (Hc i c K))) Hq A) as [_ [RI0 _]].
    apply (full_run_log HO HL dims (g_obs g) _ _ _ _ SI RI0 He).
    destruct (g_obs g) as [|k0 kr] eqn:Eo; [cbn in Hl; lia|].
    apply (obstacles_reach_all dims _ _ k0); [apply Hr; left; reflexivity|exact Hp|left; reflexivity| |exact Hi].
    intros j Hj. destruct (getCell_in dims g j Hg Hj) as [c Hcj]. destruct (isOccupied c) eqn:Ho.
    + left. apply Hob. exists c. auto.
    + right. exists c. auto.
Qed.

(** times and their maximum after the first wave *)
Lemma first_times dims (g : grid F64) flo fhi fuel st log (iF : Z) :
  double_problem dims g (g_obs g) -> within_resolution dims g flo fhi -> (forall i, In i (g_obs g) <-> obstacle g i) -> free g iF ->
  fmm_outcome HO no_heur noGoal (g_obs g) (setClean g false) fuel st log ->
  times_ok64 (fs_g st) -> FSup dims (g_obs g) (free g) fhi (times64 (fs_g st)) ->
  grid_ok dims (fs_g st) ->
  (forall i, 0 <= i < box_size dims -> times64 (fs_g st) i <> None) ->
  (1 <= INR (length dims))%R /\ (0 < fhi)%R /\
  exists M iM, (0 < M)%R /\ Fin (getMaxValue (fs_g st)) M /\ 0 <= iM < box_size dims /\ times64 (fs_g st) iM = Some M /\
  forall i, 0 <= i < box_size dims -> exists c t, getCell (fs_g st) i = Ok c /\ Fin (c_val c) t /\ times64 (fs_g st) i = Some t /\ (0 <= t <= M)%R /\
    (obstacle g i -> t = 0%R) /\ (free g i -> velocity_floor dims flo fhi * (26 / 18) <= t / M)%R.
Proof.
  intros HP HW Hob HiF Hout Htok S Hg1 Hall. pose proof HP as [[H2 Hlt] [[Hg Hc] [[Hnd Hr] _]]]. pose proof (dims2_proper' _ H2) as Hp.
  pose proof HW as [Hflo [Hfh _]]. pose proof (wr_bounds _ _ _ _ _ HP HW) as Hfr.
  destruct (C76_exact_solution_exists dims g (g_obs g) flo fhi HP HW) as [X HE]. destruct (exact_for_slow _ _ _ _ _ HP HE) as [HX HXm].
  assert (Hsep : separated dims (setClean g false) (g_obs g)) by (apply sep_obstacles; intros i Hi; apply (proj1 (Hob i) Hi)).
  assert (Hrun : run64 dims (setClean g false) (g_obs g) noGoal (fs_g st)) by (eapply (r64_fmm dims (setClean g false) (g_obs g) noGoal HO HL); eauto).
  assert (Hb : (1 <= IZR (box_size dims))%R) by (apply (IZR_le 1); pose proof (box_size_pos _ Hp); lia).
  pose proof (err_below_small dims g flo fhi Hb HW) as He.
  assert (Hnoti : forall i, free g i -> ~ In i (g_obs g)).
  { intros i [c0 [E1 E2]] Hi. destruct (proj1 (Hob i) Hi) as [c1 [E3 E4]]. congruence. }
  assert (Hrange : forall i, free g i -> 0 <= i < box_size dims).
  { intros i [c0 [E1 _]]. pose proof (getCell_range g i c0 E1) as K. destruct Hg as [_ Hlen]. rewrite Hlen in K. exact K. }
  assert (Hfhi : (0 < fhi)%R) by (specialize (Hfr iF HiF); lra).
  (* the values of the cells *)
  assert (Hcell : forall i, 0 <= i < box_size dims -> exists c t, getCell (fs_g st) i = Ok c /\ Fin (c_val c) t /\ (0 <= t)%R /\ times64 (fs_g st) i = Some t).
  { intros i Hi. destruct (getCell_in dims (fs_g st) i Hg1 Hi) as [c Hci]. destruct (times64 (fs_g st) i) as [t|] eqn:Et; [|exfalso; exact (Hall i Hi Et)].
    exists c, t. split; [exact Hci|]. pose proof (times64_val _ _ _ Htok Hci) as E. rewrite Et in E. split; [exact (toX_Fin _ _ E)|].
    split; [exact (times64_nonneg _ _ _ Htok Et)|reflexivity]. }
  (* lower bound for the times of the free cells *)
  assert (Hlow : forall i t, free g i -> times64 (fs_g st) i = Some t -> (1 <= INR (length dims))%R /\ (13 / 16 * flo <= INR (length dims) * t)%R).
  { intros i t Hfi Ht. destruct (time64 _ _ _ Ht) as [d [D1 D2]].
    destruct (C76_doubles_are_never_early dims (setClean g false) (g_obs g) flo fhi X _ noGoal (fs_g st) i d HP HW HE Hrun D1) as [E|[t' [x [T1 [T2 [T3 T4]]]]]].
    { subst d. destruct D2 as [D2 _]. discriminate D2. }
    assert (t' = t) by (destruct D2 as [_ <-]; destruct T1 as [_ <-]; reflexivity). subst t'.
    destruct (exact_floor dims (g_obs g) (free g) (slow64 g) X i x flo Hp Hflo (fun i Hi => proj1 (Hfr i Hi)) HX T3 (Hnoti i Hfi)) as [N1 N2].
    split; [exact N1|]. set (e := err_below dims flo fhi (fhi * IZR (box_size dims))) in *. set (n := INR (length dims)) in *.
    assert (X0 : (0 <= x)%R) by exact (ex_nonneg _ _ _ _ _ HX i x T3).
    assert (K : (13 / 16 * x <= t)%R) by nra. assert (n * (13 / 16 * x) <= n * t)%R by (apply Rmult_le_compat_l; lra). nra. }
  destruct (Hcell iF (Hrange iF HiF)) as [cF [tF [_ [_ [_ HtF]]]]]. destruct (Hlow iF tF HiF HtF) as [N1 NF].
  split; [exact N1|]. split; [exact Hfhi|].
  destruct (maxValue_F (fs_g st)) as [M [EM [HM0 [HMle HMat]]]].
  { intros c Hcin. apply In_nth_error in Hcin. destruct Hcin as [k Hn].
    assert (Hi : 0 <= Z.of_nat k < box_size dims).
    { destruct Hg1 as [_ <-]. assert (Hlt' : (k < length (g_cells (fs_g st)))%nat) by (apply nth_error_Some; congruence). lia. }
    assert (Hgc : getCell (fs_g st) (Z.of_nat k) = Ok c).
    { unfold getCell, vget. destruct (Z.leb_spec 0 (Z.of_nat k)); [|lia]. rewrite Nat2Z.id, Hn. reflexivity. }
    destruct (Hcell _ Hi) as [c' [t [E1 [E2 [E3 _]]]]]. assert (c' = c) by congruence. subst c'. eauto. }
  assert (HinM : forall i c t, getCell (fs_g st) i = Ok c -> Fin (c_val c) t -> (t <= M)%R).
  { intros i c t Hci Ht. apply (HMle c t); [|exact Ht]. unfold getCell in Hci. apply vget_ok in Hci. destruct Hci as [_ Hci]. apply nth_error_In in Hci. exact Hci. }
  assert (HMpos : (0 < M)%R).
  { destruct (Hcell iF (Hrange iF HiF)) as [c [t [E1 [E2 [E3 E4]]]]]. assert (t = tF) by congruence. subst t. pose proof (HinM _ _ _ E1 E2).
    assert (0 < INR (length dims) * tF)%R by lra. nra. }
  assert (HiM : exists iM, 0 <= iM < box_size dims /\ times64 (fs_g st) iM = Some M).
  { destruct HMat as [E|[c [Hcin Hcv]]]; [lra|]. apply In_nth_error in Hcin. destruct Hcin as [k Hn].
    assert (Hi : 0 <= Z.of_nat k < box_size dims).
    { destruct Hg1 as [_ <-]. assert (Hlt' : (k < length (g_cells (fs_g st)))%nat) by (apply nth_error_Some; congruence). lia. }
    assert (Hgc : getCell (fs_g st) (Z.of_nat k) = Ok c).
    { unfold getCell, vget. destruct (Z.leb_spec 0 (Z.of_nat k)); [|lia]. rewrite Nat2Z.id, Hn. reflexivity. }
    exists (Z.of_nat k). split; [exact Hi|]. rewrite (times64_get _ _ _ Hgc), (Fin_toX _ _ Hcv). reflexivity. }
  destruct HiM as [iM [HiM ETM]]. exists M, iM. split; [exact HMpos|]. split; [exact EM|]. split; [exact HiM|]. split; [exact ETM|].
  assert (HMb : (M <= 9 / 8 * fhi * IZR (box_size dims))%R).
  { pose proof (fs_bound dims (g_obs g) (free g) fhi (times64 (fs_g st)) iM M S Hfh ETM) as K. unfold Bmax in K. rewrite (NB_box _ Hp) in K. lra. }
  intros i Hi. destruct (Hcell i Hi) as [c [t [E1 [E2 [E3 E4]]]]]. exists c, t. split; [exact E1|]. split; [exact E2|]. split; [exact E4|].
  split; [split; [exact E3|exact (HinM _ _ _ E1 E2)]|]. split.
  { intros Ho. apply Hob in Ho. rewrite (fs_src _ _ _ _ _ S i Ho) in E4. congruence. }
  intros Hfi. destruct (Hlow i t Hfi E4) as [_ NL]. unfold velocity_floor. set (n := INR (length dims)) in *. set (b := IZR (box_size dims)) in *.
  apply (Rmult_le_reg_r M); [exact HMpos|]. unfold Rdiv at 3. rewrite (Rmult_assoc t), Rinv_l, Rmult_1_r by lra.
  assert (D : (0 < 2 * n * fhi * b)%R) by (repeat (apply Rmult_lt_0_compat; try lra)).
  assert (Q : (flo / (2 * n * fhi * b) * (26 / 18) * M <= flo / (2 * n * fhi * b) * (26 / 18) * (9 / 8 * fhi * b))%R).
  { apply Rmult_le_compat_l; [|exact HMb]. apply Rmult_le_pos; [|lra]. apply Rlt_le, Rdiv_lt_0_compat; assumption. }
  eapply Rle_trans; [exact Q|]. replace (flo / (2 * n * fhi * b) * (26 / 18) * (9 / 8 * fhi * b))%R with ((13 / 16 * flo) / n)%R by (field; repeat split; lra).
  apply (Rmult_le_reg_r n); [lra|]. unfold Rdiv at 1. rewrite (Rmult_assoc (13 / 16 * flo)), Rinv_l, Rmult_1_r by lra. lra.
Qed.

(** the double the code stores as velocity *)
Lemma velocity_F (leaf m t : F64) M r : Fin m M -> Fin t r -> (0 < M)%R -> (0 <= r <= M)%R ->
  Fin (fm2_velocity (nofZ (-1)) leaf m t) (rnd (r / M)) /\ (0 <= rnd (r / M) <= 1)%R /\ (r = 0 -> rnd (r / M) = 0)%R /\ (r = M -> rnd (r / M) = 1)%R /\
  (/ 2 ^ 30 <= r / M -> (1 - / 2 ^ 53) * (r / M) <= rnd (r / M) <= (1 + / 2 ^ 53) * (r / M))%R.
Proof.
  intros Hm Ht HM Hr.
  assert (Hq : (0 <= r / M <= 1)%R).
  { split; [apply Rle_mult_inv_pos; lra|]. apply (Rmult_le_reg_r M); [lra|]. unfold Rdiv. rewrite Rmult_assoc, Rinv_l; lra. }
  assert (R1 : rnd 1 = 1%R) by exact (Fin_rnd _ _ (Fin_ofZ 1 ltac:(lia))).
  split; [|split; [|split; [|split]]].
  - unfold fm2_velocity. assert (E : neqb (nofZ (-1) : F64) (nofZ (-1)) = true) by (vm_compute; reflexivity). rewrite E. cbn [negb].
    apply Fin_div; [exact Ht|exact Hm|lra|]. rewrite Rabs_right by lra. unfold big. apply Rle_trans with (bpow radix2 0); [cbn; lra|apply bpow_le; lia].
  - rewrite <- R1. rewrite <- rnd_0 at 1. split; apply rnd_le; lra.
  - intros ->. unfold Rdiv. rewrite Rmult_0_l. exact rnd_0.
  - intros ->. unfold Rdiv. rewrite Rinv_r by lra. exact R1.
  - intros Hlo. pose proof (rnd_rel (r / M)) as K. rewrite Rabs_right in K by lra.
    assert (B : (bpow radix2 (-1000) <= r / M)%R).
    { eapply Rle_trans; [|exact Hlo]. apply Rle_trans with (bpow radix2 (-30)); [apply bpow_le; lia|]. cbn. lra. }
    specialize (K B). rewrite uu_val in K. apply Rabs_le_inv in K. revert K. generalize (rnd (r / M))%R as y, (r / M)%R as q. intros y q K. lra.
Qed.

(** what the loop over the cells makes of the grid the first wave left *)
Definition rescaled (md : F64) (g1 : grid F64) : grid F64 :=
  setClean (with_cells g1 (map (fm2_rescale md (g_leaf g1) (getMaxValue g1)) (g_cells g1))) true.

Lemma velocities_F dims (g : grid F64) flo fhi fuel st log (iF : Z) :
  double_problem dims g (g_obs g) -> within_resolution dims g flo fhi -> (forall i, In i (g_obs g) <-> obstacle g i) -> free g iF ->
  fmm_outcome HO no_heur noGoal (g_obs g) (setClean g false) fuel st log ->
  times_ok64 (fs_g st) -> FSup dims (g_obs g) (free g) fhi (times64 (fs_g st)) ->
  grid_ok dims (fs_g st) -> g_leaf (fs_g st) = g_leaf g ->
  (forall i, 0 <= i < box_size dims -> times64 (fs_g st) i <> None) ->
  (forall i c, getCell (fs_g st) i = Ok c -> c_h c = n0) ->
  velocities64 dims g flo fhi (rescaled (nofZ (-1)) (fs_g st)) /\ (forall i, free (rescaled (nofZ (-1)) (fs_g st)) i <-> free g i) /\
  forall p, 0 <= p < box_size dims -> double_problem dims (rescaled (nofZ (-1)) (fs_g st)) [p].
Proof.
  intros HP HW Hob HiF Hout Htok S Hg1 Hleaf Hall Hh0.
  destruct (first_times dims g flo fhi fuel st log iF HP HW Hob HiF Hout Htok S Hg1 Hall) as [N1 [Hfhi [M [iM [HMpos [EM [HiM [ETM Hcells]]]]]]]].
  pose proof HP as [[H2 Hlt] [[Hg Hc] [[Hnd Hr] [Hh Hv]]]]. pose proof (dims2_proper' _ H2) as Hp. pose proof HW as [Hflo _].
  assert (Hb : (1 <= IZR (box_size dims))%R) by (apply (IZR_le 1); pose proof (box_size_pos _ Hp); lia).
  destruct (floor_margin dims g flo fhi Hb N1 Hfhi HW) as [FM FP].
  set (gv := rescaled (nofZ (-1)) (fs_g st)). set (vf := velocity_floor dims flo fhi) in *.
  assert (Hgv : grid_ok dims gv).
  { destruct Hg1 as [G1 G2]. split; [exact G1|]. unfold gv, rescaled. cbn [setClean with_cells g_cells]. rewrite map_length. exact G2. }
  assert (Hget : forall i c, getCell (fs_g st) i = Ok c -> getCell gv i = Ok (fm2_rescale (nofZ (-1)) (g_leaf (fs_g st)) (getMaxValue (fs_g st)) c)).
  { intros i c Hci. unfold getCell, vget in Hci |- *. unfold gv, rescaled. cbn [setClean with_cells g_cells]. destruct (0 <=? i); [|discriminate]. rewrite nth_error_map.
    destruct (nth_error (g_cells (fs_g st)) (Z.to_nat i)); [|discriminate]. injection Hci as <-. reflexivity. }
  (* each cell of the new map *)
  assert (Hcell : forall i, 0 <= i < box_size dims -> exists c t, getCell gv i = Ok c /\ times64 (fs_g st) i = Some t /\ (0 <= t <= M)%R /\ Fin (c_occ c) (rnd (t / M)) /\
    (0 <= rnd (t / M) <= 1)%R /\ (obstacle g i -> t = 0 /\ rnd (t / M) = 0)%R /\ (t = M -> rnd (t / M) = 1)%R /\
    (free g i -> vf <= rnd (t / M) /\ / 2 ^ 30 <= t / M)%R /\ (/ 2 ^ 30 <= t / M -> (1 - / 2 ^ 53) * (t / M) <= rnd (t / M) <= (1 + / 2 ^ 53) * (t / M))%R /\
    c_val c = ninf /\ c_state c = OPEN /\ c_h c = n0).
  { intros i Hi. destruct (Hcells i Hi) as [c [t [E1 [E2 [E3 [E4 [E5 E6]]]]]]].
    destruct (velocity_F (g_leaf (fs_g st)) (getMaxValue (fs_g st)) (c_val c) M t EM E2 HMpos E4) as [V1 [V2 [V3 [V4 V5]]]].
    exists (fm2_rescale (nofZ (-1)) (g_leaf (fs_g st)) (getMaxValue (fs_g st)) c), t. split; [exact (Hget i c E1)|]. split; [exact E3|]. split; [exact E4|].
    split; [exact V1|]. split; [exact V2|]. split; [intros Ho; split; [exact (E5 Ho)|exact (V3 (E5 Ho))]|]. split; [exact V4|]. split.
    { intros Hfi. specialize (E6 Hfi). assert (K : (/ 2 ^ 30 <= t / M)%R) by (fold vf in E6; lra). split; [|exact K]. specialize (V5 K).
      assert (K2 : (vf <= (1 - / 2 ^ 53) * (t / M))%R); [|lra]. fold vf in E6. lra. }
    split; [exact V5|]. split; [reflexivity|]. split; [reflexivity|]. exact (Hh0 i c E1). }
  assert (Hfree : forall i, free gv i <-> free g i).
  { intros i. split.
    - intros [c [Hci Ho]]. pose proof (getCell_range _ _ _ Hci) as K. destruct Hgv as [Hgv1 Hlen]. rewrite Hlen in K.
      destruct (getCell_in dims g i Hg K) as [c0 Hc0]. exists c0. split; [exact Hc0|]. destruct (isOccupied c0) eqn:Eo; [|reflexivity]. exfalso.
      destruct (Hcell i K) as [c' [t [E1 [_ [_ [E2 [_ [E3 _]]]]]]]]. assert (c' = c) by congruence. subst c'.
      destruct (E3 (ex_intro _ c0 (conj Hc0 Eo))) as [_ Ez]. rewrite Ez in E2. unfold isOccupied in Ho.
      change (Bltb (c_occ c) (comp_margin (N := F64)) = false) in Ho. rewrite (Fin_lt _ _ _ _ E2 Fin_margin) in Ho. unfold Rltb in Ho. pose proof Rmargin_pos.
      destruct (Rlt_dec 0 Rmargin); [discriminate|contradiction].
    - intros Hfi. assert (K : 0 <= i < box_size dims) by (destruct Hfi as [c0 [E1 _]]; pose proof (getCell_range g i c0 E1) as K; destruct Hg as [_ Hlen]; rewrite Hlen in K; exact K).
      destruct (Hcell i K) as [c [t [E1 [_ [_ [E2 [_ [_ [_ [E3 _]]]]]]]]]]. exists c. split; [exact E1|]. destruct (E3 Hfi) as [E4 _].
      unfold isOccupied. change (Bltb (c_occ c) (comp_margin (N := F64)) = false). rewrite (Fin_lt _ _ _ _ E2 Fin_margin). unfold Rltb.
      pose proof Rmargin_pos. destruct (Rlt_dec (rnd (t / M)) Rmargin); [lra|reflexivity]. }
  split; [|split; [exact Hfree|]].
  - split; [exact Hgv|]. split; [exact Hleaf|]. split; [|split].
    + intros i Hi. destruct (Hcell i Hi) as [c [t [E1 [_ [_ [E2 [E3 [E4 [_ [E5 _]]]]]]]]]]. exists c, (rnd (t / M)). split; [exact E1|]. split; [exact E2|]. split; [exact E3|].
      split; [intros Ho; apply (E4 Ho)|intros Hfi; apply (E5 Hfi)].
    + destruct (Hcell iM HiM) as [c [t [E1 [E2 [_ [E3 [_ [_ [E4 _]]]]]]]]]. assert (t = M) by congruence. subst t. exists iM, c. split; [exact E1|]. rewrite <- (E4 eq_refl). exact E3.
    + intros X xm i c v x HE [k Hk] He1 He2 Hci Hcv Hx. cbv zeta.
      assert (Hsep : separated dims (setClean g false) (g_obs g)) by (apply sep_obstacles; intros j Hj; apply (proj1 (Hob j) Hj)).
      assert (Hrun : complete64 dims (setClean g false) (g_obs g) (fs_g st)) by (eapply (c64_fmm dims (setClean g false) (g_obs g) HO HL); eauto).
      destruct (exact_for_slow _ _ _ _ _ HP HE) as [HX HXm].
      set (e1 := err_below dims flo fhi xm) in *. set (e2 := err_above dims flo fhi xm) in *.
      assert (Hacc : forall j y t, X j = Some y -> times64 (fs_g st) j = Some t -> ((1 - e1) * y <= t <= (1 + e2) * y)%R).
      { intros j y t Hy Ht. pose proof (ex_range _ _ _ _ _ HX j y Hy) as Rj.
        pose proof (C77_doubles_are_accurate dims (setClean g false) (g_obs g) flo fhi X xm (fs_g st) j HP HW HE He2 Hrun Rj) as K. rewrite Hy in K.
        destruct K as [d [t' [D1 [D2 D3]]]]. pose proof (denotes64 _ _ _ _ D1 D2) as Et. assert (t' = t) by congruence. subst t'. exact D3. }
      pose proof (ex_range _ _ _ _ _ HX i x Hx) as Ri. pose proof (ex_range _ _ _ _ _ HX k xm Hk) as Rk.
      destruct (Hcell i Ri) as [c' [t [E1 [E2 [E3 [E4 [E5 [E6 [E7 [E8 [E9 _]]]]]]]]]]]. assert (c' = c) by congruence. subst c'.
      assert (v = rnd (t / M)) by (destruct Hcv as [_ <-]; destruct E4 as [_ <-]; reflexivity). subst v.
      destruct (Hcell k Rk) as [_ [tk [_ [Ek [Ekm _]]]]]. pose proof (Hacc k xm tk Hk Ek) as Ak. pose proof (Hacc i x t Hx E2) as Ai.
      assert (HxM : exists y, X iM = Some y /\ (M <= (1 + e2) * y)%R).
      { destruct (X iM) as [y|] eqn:EX; [exists y; split; [reflexivity|exact (proj2 (Hacc iM y M EX ETM))]|]. exfalso.
        pose proof (C77_doubles_are_accurate dims (setClean g false) (g_obs g) flo fhi X xm (fs_g st) iM HP HW HE He2 Hrun HiM) as K. rewrite EX in K.
        destruct (time64 _ _ _ ETM) as [d [D1 D2]]. assert (d = ninf) by (unfold time_is in *; congruence). subst d. destruct D2 as [D2 _]. discriminate D2. }
      destruct HxM as [y [Hy AM]]. pose proof (HXm iM y Hy) as Hym. pose proof (ex_nonneg _ _ _ _ _ HX iM y Hy) as Hy0. pose proof (ex_nonneg _ _ _ _ _ HX i x Hx) as Hx0.
      assert (P2 : (0 <= e2)%R).
      { unfold e2. rewrite err_above_eq by exact Hflo. apply kap_pos; auto. }
      assert (Mhi : (M <= (1 + e2) * xm)%R) by nra.
      assert (Mlo : ((1 - e1) * xm <= M)%R) by lra.
      assert (Hxm : (0 < xm)%R) by nra.
      assert (L : ((1 - e1) / (1 + e2) * (x / xm) <= t / M)%R).
      { apply (Rmult_le_reg_r M); [exact HMpos|]. replace (t / M * M)%R with t by (field; lra).
        apply Rle_trans with ((1 - e1) / (1 + e2) * (x / xm) * ((1 + e2) * xm))%R.
        - apply Rmult_le_compat_l; [|exact Mhi]. apply Rmult_le_pos; apply Rle_mult_inv_pos; lra.
        - replace ((1 - e1) / (1 + e2) * (x / xm) * ((1 + e2) * xm))%R with ((1 - e1) * x)%R by (field; lra). lra. }
      assert (U : (t / M <= / ((1 - e1) / (1 + e2)) * (x / xm))%R).
      { apply (Rmult_le_reg_r M); [exact HMpos|]. replace (t / M * M)%R with t by (field; lra).
        apply Rle_trans with (/ ((1 - e1) / (1 + e2)) * (x / xm) * ((1 - e1) * xm))%R.
        - replace (/ ((1 - e1) / (1 + e2)) * (x / xm) * ((1 - e1) * xm))%R with ((1 + e2) * x)%R by (field; lra). lra.
        - apply Rmult_le_compat_l; [|exact Mlo]. apply Rmult_le_pos; [apply Rlt_le, Rinv_0_lt_compat, Rdiv_lt_0_compat; lra|apply Rle_mult_inv_pos; lra]. }
      assert (Hcase : (t = 0 /\ rnd (t / M) = 0)%R \/ (/ 2 ^ 30 <= t / M)%R).
      { destruct (getCell_in dims g i Hg Ri) as [c0 Hc0]. destruct (isOccupied c0) eqn:Eo; [left; apply E6; exists c0; auto|right; apply E8; exists c0; auto]. }
      destruct Hcase as [[Et Ez]|Hbig].
      * rewrite Ez. assert (t / M = 0)%R by (rewrite Et; unfold Rdiv; ring). split; [|].
        -- assert (x = 0)%R by (rewrite Et in Ai; nra). subst x. unfold Rdiv. lra.
        -- rewrite Rmult_assoc. apply Rmult_le_pos; lra.
      * specialize (E9 Hbig). split.
        -- eapply Rle_trans; [|exact (proj1 E9)]. rewrite Rmult_assoc. apply Rmult_le_compat_l; lra.
        -- eapply Rle_trans; [exact (proj2 E9)|]. rewrite (Rmult_assoc (1 + / 2 ^ 53)). apply Rmult_le_compat_l; lra.
  - intros p Hpr. split; [split; [exact H2|exact Hlt]|]. split; [split; [exact Hgv|]|split; [split; [repeat constructor; intros []|intros i [<-|[]]; exact Hpr]|split]].
    + intros i c Hci. pose proof (getCell_range _ _ _ Hci) as K. pose proof Hgv as [_ Hlen]. rewrite Hlen in K.
      destruct (Hcell i K) as [c' [t [E1 [_ [_ [_ [_ [_ [_ [_ [_ E2]]]]]]]]]]]. assert (c' = c) by congruence. subst c'. exact E2.
    + change (g_leaf gv) with (g_leaf (fs_g st)). rewrite Hleaf. exact Hh.
    + intros i c Hci Ho. pose proof (getCell_range _ _ _ Hci) as K. pose proof Hgv as [_ Hlen]. rewrite Hlen in K.
      destruct (Hcell i K) as [c' [t [E1 [_ [_ [E2 [E3 [_ [_ [E4 _]]]]]]]]]]. assert (c' = c) by congruence. subst c'.
      exists (rnd (t / M)). split; [exact E2|].
      assert (Hfi : free g i) by (apply Hfree; exists c; auto). destruct (E4 Hfi) as [E5 _].
      assert (B1 : (/ 2 ^ 200 <= / 2 ^ 30)%R) by (apply Rinv_le_contravar; [apply pow_lt; lra|apply Rle_pow; [lra|lia]]).
      assert (B2 : (1 <= 2 ^ 200)%R) by (apply pow_R1_Rle; lra). lra.
Qed.

Lemma fm2_ready_eq_any (md : F64) (g : grid F64) : g_clean g = true -> fm2_setEnvironment HO (fm2_new HO md) (Some g) =
  Ok (mkFm2 (mkSolver GSet false [] None) (g_obs g) (mkFmm (mkSolver GSet false [] None) (hempty HO) NOHEUR [] false []) md NOHEUR, g).
Proof.
  intros Hc. assert (Ec : clean g = g) by (unfold clean; rewrite Hc; reflexivity). unfold fm2_setEnvironment. cbn. rewrite Ec, Ec. reflexivity.
Qed.
Lemma reachable_mono_any dims (src src' fr fr' : Z -> Prop) : (forall i, src i -> src' i) -> (forall i, fr i -> fr' i) ->
  forall i, reachable dims src fr i -> reachable dims src' fr' i.
Proof. intros Hs Hf i H. induction H as [i H|i j H IH Ha Hj]; [apply reach_src; auto|apply (reach_step dims src' fr' i); auto]. Qed.

(** ** C85 *)
(** FM2 without saturation, from new objects, over any heap that returns a smallest element
    ([HeapLaws]): compute() ends without a fault; the velocities the grid then holds are the
    normalised first-wave times; no free cell of the map became an obstacle and no obstacle a
    free cell; the goal has time 0; the wave from the goal arrives at the start exactly when a
    path of free cells of the map joins them; and the times are those of that wave. *)
Theorem C85_fm2_computes_in_doubles :
  forall dims (g : grid F64) s goal flo fhi fuel,
  fm2_map64 dims g -> within_resolution dims g flo fhi -> free g s -> free g goal -> s <> goal -> box_size dims < Z.of_nat fuel ->
  exists o g0 o' g', fm2_setEnvironment HO (fm2_new HO (nofZ (-1))) (Some g) = Ok (o, g0) /\
    fm2_compute HO fuel (fm2_setPoints HO o [s] goal) g0 = Ok (o', g') /\
    velocities64 dims g flo fhi g' /\ (forall i, free g' i <-> free g i) /\
    (exists d, time_is g' goal d /\ denotes d 0) /\
    (exists c, getCell g' s = Ok c /\ (c_state c = FROZEN <-> reachable dims (eq goal) (free g) s)) /\
    second_wave64 dims g' s goal.
Proof.
  intros dims g s goal flo fhi fuel [Hcl [HP [Hob Hl]]] HW Hs Hk Hne Hfuel.
  pose proof HP as [Hsh [[Hg Hc] [[Hnd Hr] _]]]. pose proof Hsh as [H2 Hlt]. pose proof (dims2_proper' _ H2) as Hp.
  assert (Ec : clean g = g) by (unfold clean; rewrite Hcl; reflexivity).
  assert (Hrs : 0 <= s < box_size dims) by (destruct Hs as [c [Hs _]]; apply getCell_range in Hs; destruct Hg as [_ <-]; exact Hs).
  assert (Hrk : 0 <= goal < box_size dims) by (destruct Hk as [c [Hk _]]; apply getCell_range in Hk; destruct Hg as [_ <-]; exact Hk).
  destruct (in_range_not_goal _ _ Hsh Hrs) as [Hs1 Hs2]. destruct (in_range_not_goal _ _ Hsh Hrk) as [Hk1 Hk2].
  set (in0 := mkFmm (mkSolver GSet false [] None) (hempty HO) NOHEUR [] false []).
  exists (mkFm2 (mkSolver GSet false [] None) (g_obs g) in0 (nofZ (-1) : F64) NOHEUR), g.
  (* the checks of setup *)
  assert (Esan : sanityChecks (mkSolver GSet false [s] (Some goal)) g = Ok 0).
  { unfold sanityChecks. cbn [sv_grid sv_init goal_of sv_goal]. rewrite Hcl. cbn [negb]. destruct Hs as [cs [Hcs Hos]]. rewrite Hcs. cbn [bind]. rewrite Hos.
    destruct (Z.eqb_spec (s32 goal) (-1)); [contradiction|]. cbn [negb]. destruct Hk as [ck [Hck Hok]]. rewrite Hck. cbn [bind]. rewrite Hok.
    cbn [existsb]. destruct (Z.eqb_spec (s32 goal) (s32 s)) as [E|]; [|reflexivity]. exfalso. apply Hne. symmetry. apply s32_inj; [lia|lia|exact E]. }
  set (o1 := mkFm2 (mkSolver GSet true [s] (Some goal)) (g_obs g) in0 (nofZ (-1) : F64) NOHEUR).
  assert (Esetup : fm2_setup HO (mkFm2 (mkSolver GSet false [s] (Some goal)) (g_obs g) in0 (nofZ (-1) : F64) NOHEUR) g = Ok (o1, setClean g false)).
  { unfold fm2_setup, solver_setup. cbn [f2_s f2_sources f2_inner f2_maxDist f2_heur]. rewrite Esan. unfold o1. clear - Hl. destruct (g_obs g) as [|k0 kr]; [cbn in Hl; lia|reflexivity]. }
  destruct (first_wave64 dims g in0 flo fhi fuel HP HW Hl Hob ltac:(repeat split) Hfuel) as [st [log [Hout [Ec1 [SI [HF [Htok [Hh0 [Hord [He [FS Hall]]]]]]]]]]].
  pose proof HF as [_ [F2 [F3 _]]]. pose proof (si_grid _ _ _ _ _ _ _ SI) as Hg1.
  destruct (velocities_F dims g flo fhi fuel st log s HP HW Hob Hs Hout Htok FS Hg1 F2 Hall Hh0) as [HV [Hfree Hdp]].
  set (gv := rescaled (nofZ (-1)) (fs_g st)) in *. specialize (Hdp goal Hrk). pose proof Hdp as [_ [[Hgv Hcv] [Hpts _]]].
  assert (Hcells : g_cells (fs_g st) <> []).
  { intros E. destruct Hg1 as [_ Hlen]. rewrite E in Hlen. cbn in Hlen. pose proof (box_size_pos _ Hp). lia. }
  assert (EV : fm2_velocities HO fuel o1 (setClean g false) =
     Ok (mkFm2 (mkSolver GSet true [s] (Some goal)) (g_obs g) (mkFmm (mkSolver GSet true (g_obs g) (Some (u32 (-1)))) (fs_h st) NOHEUR [] false []) (nofZ (-1) : F64) NOHEUR, gv)).
  { unfold fm2_velocities, o1. cbn [f2_s f2_sources f2_inner f2_maxDist f2_heur]. change (setClean (setClean g false) true) with (setClean g true).
    rewrite Ec1. cbn [bind]. destruct (g_cells (fs_g st)) as [|c0 cr] eqn:Ecells; [contradiction|]. unfold gv, rescaled. rewrite Ecells. reflexivity. }
  (* the second wave, from the heap the first one left empty *)
  pose proof (with_empty_laws HO (fs_h st) HL (key (fs_g st)) (si_wf _ _ _ _ _ _ _ SI) He Hord) as HL2.
  set (HO2 := with_empty HO (fs_h st)) in *.
  destruct (C15_fmm_terminates_any_arithmetic F64 F64_laws HO2 HL2 dims gv [goal] no_heur s fuel Hsh (conj Hgv Hcv) Hpts (or_introl eq_refl) (or_intror (ex_intro _ goal eq_refl)) Hfuel)
    as [sa [la [Ra _]]].
  pose proof (sim_run HO (fs_h st) fuel no_heur s [goal] gv) as Hsim. fold HO2 in Hsim. unfold fmm_outcome in Ra. rewrite Ra in Hsim. cbn [rmap fst snd] in Hsim.
  eexists _, (setClean (fs_g sa) false). split.
  { apply fm2_ready_eq_any. exact Hcl. } split.
  { unfold fm2_setPoints, setInitialAndGoalPoints. cbn [f2_s f2_sources f2_inner f2_maxDist f2_heur sv_grid sv_setup]. rewrite Hk2. fold in0.
    unfold fm2_compute, fm2_internal. cbn [f2_s sv_setup]. rewrite Esetup. cbn [bind]. rewrite EV. cbn [bind f2_s goal_of sv_goal sv_init]. change (vget [s] 0) with (Ok s : res Z). cbn [bind].
    cbn [f2_inner f2_heur]. unfold fmm_compute, fmm_setPoints, fmm_with_solver, setInitialAndGoalPoints.
    cbn [bind fo_s sv_setup sv_grid sv_init sv_goal goal_of fo_strat fo_dist fo_coord fo_band fo_pre].
    rewrite Hs2. rewrite fmm_run_noheur by reflexivity. rewrite Hsim. cbn [bind]. reflexivity. }
  pose proof (quiet_run F64_laws HO2 HL2 dims H2 Hlt no_heur [goal] (or_introl eq_refl) s fuel gv sa la Hgv (proj1 Hpts) (proj2 Hpts)
    (fun i c K => proj1 (proj2 (Hcv i c K))) (or_intror (ex_intro _ goal eq_refl)) Ra) as [SI2 [_ [HF2 _]]].
  pose proof HF2 as [G1 [G2 [G3 [G4 [G5 G6]]]]].
  set (g' := setClean (fs_g sa) false).
  assert (Hocc : forall i c, getCell gv i = Ok c -> exists c', getCell g' i = Ok c' /\ c_occ c' = c_occ c).
  { intros i c Hci. destruct (G6 i c Hci) as [c' [K1 [K2 _]]]. exists c'. auto. }
  assert (Hocc' : forall i c', getCell g' i = Ok c' -> exists c, getCell gv i = Ok c /\ c_occ c' = c_occ c).
  { intros i c' Hci. pose proof (getCell_range _ _ _ Hci) as K. change (length (g_cells g')) with (length (g_cells (fs_g sa))) in K. rewrite G5 in K.
    pose proof Hgv as [_ Hlen]. rewrite Hlen in K. destruct (getCell_in dims gv i Hgv K) as [c Hcg]. destruct (Hocc i c Hcg) as [c2 [K1 K2]].
    exists c. split; [exact Hcg|]. congruence. }
  assert (Hfree' : forall i, free g' i <-> free gv i).
  { intros i. split; intros [c [Hci Ho]].
    - destruct (Hocc' i c Hci) as [c0 [K1 K2]]. exists c0. split; [exact K1|]. unfold isOccupied in *. rewrite <- K2. exact Ho.
    - destruct (Hocc i c Hci) as [c0 [K1 K2]]. exists c0. split; [exact K1|]. unfold isOccupied in *. rewrite K2. exact Ho. }
  assert (Hcost : forall i f, cost g' i f <-> cost gv i f).
  { intros i f. split; intros [c [h [v [A [B [C D]]]]]].
    - destruct (Hocc' i c A) as [c0 [K1 K2]]. exists c0, h, v. split; [exact K1|]. rewrite <- K2. rewrite <- G2. auto.
    - destruct (Hocc i c A) as [c0 [K1 K2]]. exists c0, h, v. split; [exact K1|]. rewrite K2. change (g_leaf g') with (g_leaf (fs_g sa)). rewrite G2. auto. }
  split; [|split; [|split; [|split]]].
  - destruct HV as [V1 [V2 [V3 [V4 V5]]]]. split; [exact (si_grid _ _ _ _ _ _ _ SI2)|]. split; [exact (eq_trans G2 V2)|]. split; [|split].
    + intros i Hi. destruct (V3 i Hi) as [c [v [K1 [K2 K3]]]]. destruct (Hocc i c K1) as [c' [K4 K5]]. exists c', v. rewrite K5. auto.
    + destruct V4 as [i [c [K1 K2]]]. destruct (Hocc i c K1) as [c' [K4 K5]]. exists i, c'. rewrite K5. auto.
    + intros X xm i c v x A1 A2 A3 A4 A5 A6 A7. destruct (Hocc' i c A5) as [c0 [K1 K2]]. rewrite K2 in A6. exact (V5 X xm i c0 v x A1 A2 A3 A4 K1 A6 A7).
  - intros i. rewrite Hfree'. apply Hfree.
  - pose proof (C16_single_source_at_zero F64 HO2 HL2 gv goal no_heur s fuel sa la Ra) as K. exists n0. split; [exact K|]. exact Fz0.
  - destruct (C17_goal_frozen_iff_connected_any_arithmetic F64 F64_laws HO2 HL2 dims gv [goal] no_heur s fuel sa la Hsh (conj Hgv Hcv) Hpts (or_introl eq_refl)
      (or_intror (ex_intro _ goal eq_refl)) Ra Hrs) as [c [K1 K2]]. exists c. split; [exact K1|]. rewrite K2. split; intros K.
    + revert K. apply reachable_mono_any; [intros i [E|[]]; exact E|intros i; apply Hfree].
    + revert K. apply reachable_mono_any; [intros i E; left; exact E|intros i; apply Hfree].
  - intros flo2 fhi2 X Xm [W1 [W2 [W3 W4]]] [f [E1 [E2 E3]]].
    assert (HW2 : within_resolution dims gv flo2 fhi2).
    { split; [exact W1|]. split; [exact W2|]. split; [|exact W4]. intros i f0 Hfi Hco. apply (W3 i f0); [apply Hfree'; exact Hfi|apply Hcost; exact Hco]. }
    assert (HE2 : exact_for dims gv [goal] X Xm).
    { exists f. split; [intros i Hfi; apply Hcost, E1, Hfree', Hfi|]. split; [|exact E3]. destruct E2 as [Q1 Q2 Q3 Q4 Q5]. constructor; auto.
      - intros i t ms A B C. destruct (Q2 i t ms A B C) as [D1 D2]. split; [apply Hfree', D1|exact D2].
      - intros i j A B. apply (Q3 i j A). apply Hfree', B. }
    assert (Hsep : separated dims gv [goal]) by (apply separated_one; exact Hp).
    assert (Hrun : run64 dims gv [goal] s (fs_g sa)) by (eapply (r64_fmm dims gv [goal] s HO2 HL2); eauto).
    split.
    + intros i d Hd. change (time_is (fs_g sa) i d) in Hd.
      destruct (run_facts dims gv [goal] flo2 fhi2 X Xm Hdp HW2 HE2 s (fs_g sa) Hrun) as [_ [A [B C]]].
      destruct (ok64_time (fs_g sa) i d A Hd) as [E|[t [K1 [K2 K3]]]]; [left; exact E|right].
      destruct (C i t K3) as [x [Hx Hle]]. exists t, x. rewrite err_below_eq by exact W1.
      pose proof (fs_bound dims [goal] (free gv) fhi2 (times64 (fs_g sa)) i t B W2 K3) as Hb. unfold Bmax in Hb. rewrite (NB_box _ Hp) in Hb. auto.
    + intros x Hk2' Hx. exact (C78_goal_time_is_accurate HO2 HL2 dims gv [goal] flo2 fhi2 X Xm s fuel sa la x Hdp HW2 HE2 Hk2' Hsep Ra Hx).
Qed.
End FM2.
Print Assumptions C85_fm2_computes_in_doubles.

(** with the heaps of the library *)
Theorem C85_fm2_with_the_library_heaps :
  forall dims (g : grid F64) s goal flo fhi fuel,
  fm2_map64 dims g -> within_resolution dims g flo fhi -> free g s -> free g goal -> s <> goal -> box_size dims < Z.of_nat fuel ->
  (exists o g0 o' g', fm2_setEnvironment (DaryHeap (N := F64)) (fm2_new _ (nofZ (-1))) (Some g) = Ok (o, g0) /\
     fm2_compute _ fuel (fm2_setPoints _ o [s] goal) g0 = Ok (o', g') /\ velocities64 dims g flo fhi g' /\ second_wave64 dims g' s goal) /\
  (exists o g0 o' g', fm2_setEnvironment (FibHeap (N := F64)) (fm2_new _ (nofZ (-1))) (Some g) = Ok (o, g0) /\
     fm2_compute _ fuel (fm2_setPoints _ o [s] goal) g0 = Ok (o', g') /\ velocities64 dims g flo fhi g' /\ second_wave64 dims g' s goal).
Proof.
  intros dims g s goal flo fhi fuel A B C D E F. split.
  - destruct (C85_fm2_computes_in_doubles DaryHeap (DaryLaws F64_laws) dims g s goal flo fhi fuel A B C D E F) as (o & g0 & o' & g' & K1 & K2 & K3 & _ & _ & _ & K4).
    exists o, g0, o', g'. auto.
  - destruct (C85_fm2_computes_in_doubles FibHeap (FibLaws F64_laws) dims g s goal flo fhi fuel A B C D E F) as (o & g0 & o' & g' & K1 & K2 & K3 & _ & _ & _ & K4).
    exists o, g0, o', g'. auto.
Qed.

(** When is [second_wave64] informative?  If no free cell is slower than [w], which C85 gives
    for w = velocity_floor, and the grid is small enough for w, the velocity map is itself
    within the resolution of doubles and the exact solution over it exists. *)
Lemma scrub_exact dims (g : grid F64) goal flo fhi : shape_ok dims -> grid_ok dims g -> 0 <= goal < box_size dims ->
  (exists h, denotes (g_leaf g) h /\ / 2 ^ 200 <= h <= 2 ^ 200)%R ->
  (forall i c, getCell g i = Ok c -> isOccupied c = false -> exists v, denotes (c_occ c) v /\ (/ 2 ^ 200 <= v <= 2 ^ 200)%R) ->
  within_resolution dims g flo fhi -> exists X, exact_for dims g [goal] X (fhi * IZR (box_size dims)).
Proof.
  intros Hsh [G1 G2] Hk Hh Hv HW.
  set (sc := fun c : cell F64 => mkCell ninf (c_occ c) OPEN 0 n0 (c_idx c)).
  set (gc := with_cells g (map sc (g_cells g))).
  assert (Hget : forall i c, getCell g i = Ok c -> getCell gc i = Ok (sc c)).
  { intros i c Hci. unfold getCell, vget in Hci |- *. unfold gc. cbn [with_cells g_cells]. destruct (0 <=? i); [|discriminate]. rewrite nth_error_map.
    destruct (nth_error (g_cells g) (Z.to_nat i)); [|discriminate]. injection Hci as <-. reflexivity. }
  assert (Hgc : grid_ok dims gc) by (split; [exact G1|]; unfold gc; cbn [with_cells g_cells]; rewrite map_length; exact G2).
  assert (Hget' : forall i c, getCell gc i = Ok c -> exists c0, getCell g i = Ok c0 /\ c = sc c0).
  { intros i c Hci. pose proof (getCell_range _ _ _ Hci) as K. destruct Hgc as [_ Hlen]. rewrite Hlen in K. destruct (getCell_in dims g i (conj G1 G2) K) as [c0 Hc0].
    exists c0. split; [exact Hc0|]. rewrite (Hget i c0 Hc0) in Hci. congruence. }
  assert (Hfr : forall i, free gc i <-> free g i).
  { intros i. split; intros [c [A B]]; [destruct (Hget' i c A) as [c0 [A0 ->]]; exists c0; auto|exists (sc c); split; [exact (Hget i c A)|exact B]]. }
  assert (Hco : forall i f, cost gc i f <-> cost g i f).
  { intros i f. split; intros [c [h [v [A B]]]]; [destruct (Hget' i c A) as [c0 [A0 ->]]; exists c0, h, v; auto|exists (sc c), h, v; split; [exact (Hget i c A)|exact B]]. }
  assert (HP : double_problem dims gc [goal]).
  { split; [exact Hsh|]. split; [split; [exact Hgc|]|split; [split; [repeat constructor; intros []|intros i [<-|[]]; exact Hk]|split]].
    - intros i c Hci. destruct (Hget' i c Hci) as [c0 [_ ->]]. repeat split.
    - exact Hh.
    - intros i c Hci Ho. destruct (Hget' i c Hci) as [c0 [A0 ->]]. exact (Hv i c0 A0 Ho). }
  assert (HWc : within_resolution dims gc flo fhi).
  { destruct HW as [W1 [W2 [W3 W4]]]. split; [exact W1|]. split; [exact W2|]. split; [|exact W4]. intros i f A B. apply (W3 i f); [apply Hfr, A|apply Hco, B]. }
  destruct (C76_exact_solution_exists dims gc [goal] flo fhi HP HWc) as [X [f [E1 [E2 E3]]]]. exists X, f.
  split; [intros i Hi; apply Hco, E1, Hfr, Hi|]. split; [|exact E3]. destruct E2 as [Q1 Q2 Q3 Q4 Q5]. constructor; auto.
  - intros i t ms A B C. destruct (Q2 i t ms A B C) as [D1 D2]. split; [apply Hfr, D1|exact D2].
  - intros i j A B. apply (Q3 i j A). apply Hfr, B.
Qed.

Theorem C85_velocity_map_within_resolution :
  forall dims (g g' : grid F64) flo fhi goal h w,
  fm2_map64 dims g -> velocities64 dims g flo fhi g' -> (forall i, free g' i <-> free g i) -> 0 <= goal < box_size dims ->
  denotes (g_leaf g) h -> (/ 2 ^ 200 <= w <= 1)%R -> (forall i c v, free g' i -> getCell g' i = Ok c -> denotes (c_occ c) v -> w <= v)%R ->
  (512 * INR (length dims) ^ 4 * (IZR (box_size dims) + 3) ^ 2 <= 2 ^ 53 * w ^ 2)%R ->
  within_resolution dims g' h (h / w) /\ exists X, exact_for dims g' [goal] X (h / w * IZR (box_size dims)).
Proof.
  intros dims g g' flo fhi goal h w [_ [HP _]] [V1 [V2 [V3 _]]] Hfree Hk Hh Hw Hmin Hsmall.
  pose proof HP as [Hsh [_ [_ [[h' [Hh' Rh]] _]]]].
  assert (h' = h) by (destruct Hh as [_ <-]; destruct Hh' as [_ <-]; reflexivity). subst h'.
  assert (P200 : (0 < / 2 ^ 200)%R) by (apply Rinv_0_lt_compat, pow_lt; lra).
  assert (Hvel : forall i c, getCell g' i = Ok c -> isOccupied c = false -> exists v, denotes (c_occ c) v /\ (w <= v <= 1)%R).
  { intros i c Hci Ho. pose proof (getCell_range _ _ _ Hci) as K. pose proof V1 as [_ Hlen]. rewrite Hlen in K.
    destruct (V3 i K) as [c' [v [E1 [E2 [E3 _]]]]]. assert (c' = c) by congruence. subst c'. exists v. split; [exact E2|]. split; [|lra].
    apply (Hmin i c v); [exists c; auto|exact Hci|exact E2]. }
  assert (HW : within_resolution dims g' h (h / w)).
  { split; [lra|]. split; [apply Rlt_le, Rdiv_lt_0_compat; lra|]. split.
    - intros i f [c0 [Hc0 Ho]] [c [h2 [v [Hc [H1 [H2 ->]]]]]]. assert (c0 = c) by congruence. subst c0. rewrite V2 in H1.
      assert (h2 = h) by (destruct Hh as [_ <-]; destruct H1 as [_ <-]; reflexivity). subst h2.
      destruct (Hvel i c Hc Ho) as [v' [E1 E2]]. assert (v' = v) by (destruct E1 as [_ <-]; destruct H2 as [_ <-]; reflexivity). subst v'.
      unfold Rdiv. split.
      + rewrite <- (Rmult_1_r h) at 1. apply Rmult_le_compat_l; [lra|]. rewrite <- Rinv_1. apply Rinv_le_contravar; lra.
      + apply Rmult_le_compat_l; [lra|]. apply Rinv_le_contravar; lra.
    - set (b := IZR (box_size dims)) in *. set (n4 := (INR (length dims) ^ 4)%R) in *.
      replace (512 * n4 * ((b + 3) * (h / w)) ^ 2)%R with ((512 * n4 * (b + 3) ^ 2) * (h ^ 2 / w ^ 2))%R by (field; lra).
      replace (2 ^ 53 * h ^ 2)%R with ((2 ^ 53 * w ^ 2) * (h ^ 2 / w ^ 2))%R by (field; lra).
      apply Rmult_le_compat_r; [|exact Hsmall]. apply Rle_mult_inv_pos; nra. }
  split; [exact HW|]. apply (scrub_exact dims g' goal h (h / w) Hsh V1 Hk); [exists h; rewrite V2; auto| |exact HW].
  intros i c Hci Ho. destruct (Hvel i c Hci Ho) as [v [E1 E2]]. exists v. split; [exact E1|].
  assert (1 <= 2 ^ 200)%R by (apply pow_R1_Rle; lra). lra.
Qed.
Print Assumptions C85_velocity_map_within_resolution.

(** ** A map the theorems apply to: 3x3, obstacles in two opposite corners *)
Definition c85_grid : grid F64 := setOccupiedCells (vgrid [3;3] (n1 : F64) [z64 0; z64 1; z64 2; z64 1; z64 1; z64 4; z64 1; z64 1; z64 0]) [0; 8].

Lemma c85_cells i c : getCell c85_grid i = Ok c ->
  ((i = 0 \/ i = 8) /\ c_occ c = z64 0 /\ isOccupied c = true) \/ (1 <= i <= 7 /\ isOccupied c = false /\ exists z, c_occ c = z64 z /\ 1 <= z <= 4).
Proof.
  intros H. pose proof (getCell_range _ _ _ H) as R. cbn in R.
  assert (O : forall z, isOccupied (with_occ c (z64 z)) = nltb (z64 z) (comp_margin (N := F64))) by reflexivity.
  assert (K : i = 0 \/ i = 1 \/ i = 2 \/ i = 3 \/ i = 4 \/ i = 5 \/ i = 6 \/ i = 7 \/ i = 8) by lia.
  assert (Z0 : nltb (z64 0) (comp_margin (N := F64)) = true) by (vm_compute; reflexivity).
  assert (Z1 : nltb (z64 1) (comp_margin (N := F64)) = false) by (vm_compute; reflexivity).
  assert (Z2 : nltb (z64 2) (comp_margin (N := F64)) = false) by (vm_compute; reflexivity).
  assert (Z4 : nltb (z64 4) (comp_margin (N := F64)) = false) by (vm_compute; reflexivity).
  assert (J : forall z, z = 1 \/ z = 2 \/ z = 4 -> nltb (z64 z) (comp_margin (N := F64)) = false) by (intros z [->|[->| ->]]; assumption).
  assert (L : forall z, 1 <= i <= 7 -> z = 1 \/ z = 2 \/ z = 4 -> c_occ c = z64 z -> 1 <= i <= 7 /\ isOccupied c = false /\ exists z, c_occ c = z64 z /\ 1 <= z <= 4).
  { intros z Hi Hz E. split; [exact Hi|]. split; [unfold isOccupied; rewrite E; exact (J z Hz)|]. exists z. split; [exact E|lia]. }
  assert (L0 : c_occ c = z64 0 -> c_occ c = z64 0 /\ isOccupied c = true) by (intros E; split; [exact E|unfold isOccupied; rewrite E; exact Z0]).
  destruct K as [->|[->|[->|[->|[->|[->|[->|[->| ->]]]]]]]]; injection H as <-;
    first [left; split; [lia|]; apply L0; reflexivity | right; eapply (L 1); [lia|lia|reflexivity] | right; eapply (L 2); [lia|lia|reflexivity] | right; eapply (L 4); [lia|lia|reflexivity]].
Qed.

Example C85_case :
  fm2_map64 [3;3] c85_grid /\ within_resolution [3;3] c85_grid (1/4) 1 /\ free c85_grid 2 /\ free c85_grid 6 /\
  (/ 144 <= velocity_floor ([3;3])%Z (1/4) 1)%R /\
  (512 * INR (length [3;3]%Z) ^ 4 * (IZR (box_size [3;3]%Z) + 3) ^ 2 <= 2 ^ 53 * velocity_floor ([3;3])%Z (1/4) 1 ^ 2)%R.
Proof.
  assert (Hcl : clean_grid [3;3] c85_grid) by exact (vgrid_clean [3;3] (n1 : F64) [z64 0; z64 1; z64 2; z64 1; z64 1; z64 4; z64 1; z64 1; z64 0] eq_refl).
  assert (Hfree : forall i, 1 <= i <= 7 -> free c85_grid i).
  { intros i Hi. destruct (getCell_in [3;3] c85_grid i (proj1 Hcl)) as [c Hc]; [cbn; lia|]. exists c. split; [exact Hc|].
    destruct (c85_cells i c Hc) as [[K _]|[_ [K _]]]; [lia|exact K]. }
  assert (HF : velocity_floor ([3;3])%Z (1/4) 1 = (/ 144)%R) by (unfold velocity_floor; cbn [length INR box_size fold_right]; change (3 * (3 * 1)) with 9; field).
  split; [|split; [|split; [apply Hfree; lia|split; [apply Hfree; lia|split; [rewrite HF; lra|]]]]].
  - split; [reflexivity|]. split; [|split; [|cbn; lia]].
    + split; [split; [repeat constructor; lia|cbn; lia]|]. split; [exact Hcl|]. split.
      * split; [cbn; repeat constructor; cbn; lia|]. intros i [<-|[<-|[]]]; cbn; lia.
      * pose proof pow200_big as B. assert (B' : (/ 2 ^ 200 <= 1)%R) by (rewrite <- Rinv_1; apply Rinv_le_contravar; lra).
        split; [exists 1%R; split; [exact (denotes_Z 1 ltac:(lia))|lra]|].
        intros i c Hc Ho. destruct (c85_cells i c Hc) as [[_ [_ K]]|[_ [_ [z [-> Hz]]]]]; [congruence|]. exists (IZR z). split; [apply denotes_Z; lia|].
        destruct Hz as [Z1 Z2]. apply IZR_le in Z1, Z2. lra.
    + intros i. split.
      * intros Hi. destruct (getCell_in [3;3] c85_grid i (proj1 Hcl)) as [c Hc]; [destruct Hi as [<-|[<-|[]]]; cbn; lia|]. exists c. split; [exact Hc|].
        destruct (c85_cells i c Hc) as [[_ [_ K]]|[K _]]; [exact K|destruct Hi as [<-|[<-|[]]]; lia].
      * intros [c [Hc Ho]]. destruct (c85_cells i c Hc) as [[[->| ->] _]|[_ [K _]]]; [left; reflexivity|right; left; reflexivity|congruence].
  - split; [lra|]. split; [lra|]. split.
    + intros i f [c0 [Hc0 Ho]] [c [h [v [Hc [[_ Hh] [[_ Hv] ->]]]]]]. assert (c0 = c) by congruence. subst c0.
      destruct (c85_cells i c Hc) as [[_ [_ K]]|[_ [_ [z [E Hz]]]]]; [congruence|]. rewrite E in Hv. rewrite (proj2 (denotes_Z z ltac:(lia))) in Hv.
      change (g_leaf c85_grid) with (z64 1) in Hh. rewrite (proj2 (denotes_Z 1 ltac:(lia))) in Hh. subst h v.
      destruct Hz as [Z1 Z2]. apply IZR_le in Z1, Z2. unfold Rdiv. rewrite !Rmult_1_l. split; [|rewrite <- Rinv_1]; apply Rinv_le_contravar; lra.
    + change (box_size [3;3]) with 9. cbn [length INR]. lra.
  - rewrite HF. change (box_size [3;3]%Z) with 9. cbn [length INR]. lra.
Qed.

(** Prop_GMM.v - property theorems C37 and C56: GMM. *)
From Coq Require Import Reals Lra Bool Eqdep_dec.
From Flocq Require Import IEEE754.BinarySingleNaN.
From Verif Require Import Base BaseFacts Num NumXR NumF64 NumLaws Grid GridFacts GridUpd GridMore Eikonal
  FMMModel HeapRef HeapLaws SweepModel QueueModel UntidyModel Spec Obs EikR Solution XGrid FMMStruct FMMAbs FMMX Relax Exact Evolve Bound
  SweepX GMMX Prop_FMM Prop_Sweep Prop_Bound.
Open Scope Z_scope.

(** ** C56 *)
(** With a positive step and no goal the run ends; it leaves finite exactly the cells
    that can be reached, none of them below the exact solution. *)
Theorem C56_gmm_terminates_and_reaches_the_reachable_cells :
  forall dims (g : grid XR) init X dt,
  exact_problem dims g init -> exact_solution dims (fun i => In i init) (free g) (slow g) X -> (0 < dt)%R ->
  exists fuel s', gmm_run fuel (XFin dt : XR) noGoal init g = Ok s' /\ gm_l s' = [] /\
  forall i, 0 <= i < box_size dims ->
    match X i, times (gm_g s') i with
    | Some x, Some t => (x <= t)%R
    | None, None => True
    | _, _ => False
    end.
Proof.
  intros dims g init X dt HP HX Hdt. pose proof HP as [[H2 Hlt] [[Hg Hc] [Hre [Hnd Hr]]]].
  pose proof (dims2_proper' _ H2) as Hp.
  assert (Hv : forall k c, getCell g k = Ok c -> c_val c = XPInf) by (intros k c Hk; apply (Hc k c Hk)).
  assert (Ho : forall k c, getCell g k = Ok c -> c_state c = OPEN) by (intros k c Hk; apply (Hc k c Hk)).
  assert (Hf : forall k, free g k -> (0 < slow g k)%R) by (intros k Hk; apply slow_pos; assumption).
  destruct (gmm_terminates dims H2 Hlt init Hr g Hg Hre Hv Ho X HX noGoal dt Hdt) as [fuel [s' [H [Hend [Hev Hall]]]]].
  exists fuel, s'. split; [exact H|].
  assert (El : gm_l s' = []) by (destruct Hend as [E|[_ [_ K]]]; [exact E|unfold noGoal in K; lia]).
  split; [exact El|]. intros i Hi.
  destruct (ev_above dims init H2 Hlt X g (gm_g s') Hg Hre HX Hv Hev) as [_ Hab].
  destruct (times (gm_g s') i) as [t|] eqn:Et.
  - destruct (Hab i t Et) as [x [-> Hx]]. exact Hx.
  - destruct (X i) as [x|] eqn:Ex; [|exact I]. apply (Hall El i); [|exact Et].
    destruct (exact_solution_delta dims init (free g) (slow g) Hf X 1 ltac:(lra) HX) as [SX [NX _]].
    apply (reached_iff dims (fun i => In i init) (free g) (slow g) Hp Hf (fun i => in_dec Z.eq_dec i init) 1 X SX NX Hr i Hi). rewrite Ex. discriminate.
Qed.
Print Assumptions C56_gmm_terminates_and_reaches_the_reachable_cells.

(** With a goal: the run ends too, with an empty band or with the goal accepted. *)
Theorem C56_gmm_terminates_with_a_goal :
  forall dims (g : grid XR) init goal dt, exact_problem dims g init -> (0 < dt)%R ->
  exists fuel s', gmm_run fuel (XFin dt : XR) goal init g = Ok s' /\
    (gm_l s' = [] \/ exists c, getCell (gm_g s') goal = Ok c /\ c_state c = FROZEN).
Proof.
  intros dims g init goal dt HP Hdt. pose proof HP as [[H2 Hlt] [[Hg Hc] [Hre [Hnd Hr]]]].
  assert (Hv : forall k c, getCell g k = Ok c -> c_val c = XPInf) by (intros k c Hk; apply (Hc k c Hk)).
  assert (Ho : forall k c, getCell g k = Ok c -> c_state c = OPEN) by (intros k c Hk; apply (Hc k c Hk)).
  destruct (C52_exact_solution_exists_and_is_unique _ _ _ HP) as [X [HX _]].
  destruct (gmm_terminates dims H2 Hlt init Hr g Hg Hre Hv Ho X HX goal dt Hdt) as [fuel [s' [H [Hend [Hev _]]]]].
  exists fuel, s'. split; [exact H|]. destruct Hend as [E|[E1 E2]]; [left; exact E|right].
  pose proof (ev_frame _ _ _ Hev) as HF.
  destruct (getCell_in dims (gm_g s') goal (frame_grid_ok _ _ _ _ HF Hg) E2) as [c Ec]. exists c. split; [exact Ec|].
  unfold st in E1. rewrite Ec in E1. exact E1.
Qed.

(** ** C37 *)
(** Step 0 never ends: if some initial point has a free neighbour [j] that is not an initial
    point and some cell's exact time is more than one cell's crossing time of [j], the
    run is still going after any number of turns, although every cell is reachable. *)
Theorem C37_step_zero_never_ends :
  forall dims (g : grid XR) init X i j k x,
  exact_problem dims g init -> exact_solution dims (fun i => In i init) (free g) (slow g) X ->
  In i init -> adjacent dims i j -> free g j -> ~ In j init -> X k = Some x -> (slow g j < x)%R ->
  forall fuel, gmm_run fuel (XFin 0 : XR) noGoal init g = Fail OutOfFuel.
Proof.
  intros dims g init X i j k x HP HX Hi Ha Hfj Hj Hk Hx. pose proof HP as [[H2 Hlt] [[Hg Hc] [Hre [Hnd Hr]]]].
  pose proof (dims2_proper' _ H2) as Hp.
  assert (Hv : forall k c, getCell g k = Ok c -> c_val c = XPInf) by (intros y c Hy; apply (Hc y c Hy)).
  assert (Ho : forall k c, getCell g k = Ok c -> c_state c = OPEN) by (intros y c Hy; apply (Hc y c Hy)).
  assert (Hf : forall k, free g k -> (0 < slow g k)%R) by (intros y Hy; apply slow_pos; assumption).
  apply (gmm_step0 dims H2 Hlt init Hr g Hg Hre Hv Ho X HX noGoal i j k x); auto.
  - destruct (exact_solution_delta dims init (free g) (slow g) Hf X 1 ltac:(lra) HX) as [SX [NX _]].
    apply (reached_iff dims (fun i => In i init) (free g) (slow g) Hp Hf (fun i => in_dec Z.eq_dec i init) 1 X SX NX Hr k (ex_range _ _ _ _ _ HX k x Hk)). rewrite Hk. discriminate.
  - left. unfold noGoal. lia.
Qed.
Print Assumptions C37_step_zero_never_ends.

(** Any arithmetic: a turn that leaves the threshold where it was, with every listed time
    above it, is repeated for ever. *)
Theorem C37_absorbed_step_never_ends :
  forall (N : Num) dt goal (s : gmm_state (N := N)), gm_l s <> [] -> nadd (gm_tm s) dt = gm_tm s ->
  (forall x, In x (gm_l s) -> exists t, getArrivalTime (gm_g s) x = Ok t /\ nleb t (gm_tm s) = false) ->
  forall fuel, gmm_loop fuel dt goal s false = Fail OutOfFuel.
Proof. intros N. exact (@gmm_stuck N). Qed.
Print Assumptions C37_absorbed_step_never_ends.

(** the step of the first grid is the step of every later grid *)
Theorem C37_step_is_kept :
  forall (N : Num) dt (g1 g2 : grid N), nltb (gmm_setup_dt dt g1) n0 = false ->
  gmm_setup_dt (gmm_setup_dt dt g1) g2 = gmm_setup_dt dt g1.
Proof. intros N dt g1 g2 H. unfold gmm_setup_dt at 1. rewrite H. reflexivity. Qed.

(** *** doubles *)
Definition f64_same (x y : f64) : bool :=
  match x, y with
  | B754_zero a, B754_zero b | B754_infinity a, B754_infinity b => Bool.eqb a b
  | B754_nan, B754_nan => true
  | B754_finite a m e _, B754_finite b n f _ => Bool.eqb a b && Pos.eqb m n && Z.eqb e f
  | _, _ => false
  end.
Lemma f64_same_eq x y : f64_same x y = true -> x = y.
Proof.
  destruct x as [a|a| |a m e H], y as [b|b| |b n f K]; cbn; try discriminate; intros E.
  - apply Bool.eqb_prop in E. congruence.
  - apply Bool.eqb_prop in E. congruence.
  - reflexivity.
  - apply andb_prop in E. destruct E as [E E3]. apply andb_prop in E. destruct E as [E1 E2].
    apply Bool.eqb_prop in E1. apply Pos.eqb_eq in E2. apply Z.eqb_eq in E3. subst. f_equal. apply (UIP_dec bool_dec).
Qed.

Definition stuckb (dt : F64) (s : gmm_state (N := F64)) : bool :=
  match gm_l s with [] => false | _ => true end && f64_same (nadd (gm_tm s) dt) (gm_tm s) &&
  forallb (fun x => match getArrivalTime (gm_g s) x with Ok t => negb (nleb t (gm_tm s)) | Fail _ => false end) (gm_l s).

Fixpoint stuck_in (n : nat) (dt : F64) (goal : Z) (s : gmm_state (N := F64)) : bool :=
  match n with
  | O => stuckb dt s
  | S n => match gm_l s with [] => false | _ =>
      match (let tm := nadd (gm_tm s) dt in
             g1 <- foldM (gmm_first tm) (rev (gm_l s)) (gm_g s) ;;
             '(g2, l2, stop2) <- gmm_second tm goal g1 [] (gm_l s) [] false ;; Ok (mkGmm g2 l2 tm, stop2)) with
      | Ok (s', false) => stuck_in n dt goal s'
      | _ => false
      end end
  end.

Lemma stuck_in_sound dt goal : forall n s, stuck_in n dt goal s = true -> forall fuel, gmm_loop fuel dt goal s false = Fail OutOfFuel.
Proof.
  induction n as [|n IH]; intros s H fuel.
  - cbn [stuck_in] in H. apply andb_prop in H. destruct H as [H H3]. apply andb_prop in H. destruct H as [H1 H2].
    apply (@gmm_stuck F64); [destruct (gm_l s); discriminate|apply f64_same_eq, H2|].
    rewrite forallb_forall in H3. intros x Hx. specialize (H3 x Hx). destruct (getArrivalTime (gm_g s) x) as [t|]; [|discriminate].
    exists t. split; [reflexivity|]. destruct (nleb t (gm_tm s)); [discriminate|reflexivity].
  - cbn [stuck_in] in H. destruct (gm_l s) as [|a l] eqn:El; [discriminate|]. rewrite <- El in *.
    destruct fuel as [|fuel]; cbn [gmm_loop]; [rewrite El; reflexivity|]. rewrite El at 1. cbv zeta in *.
    destruct (foldM (gmm_first (nadd (gm_tm s) dt)) (rev (gm_l s)) (gm_g s)) as [g1|e]; cbn [bind] in *; [|discriminate].
    destruct (gmm_second (nadd (gm_tm s) dt) goal g1 [] (gm_l s) [] false) as [[[g2 l2] stop2]|e]; cbn [bind] in *; [|discriminate].
    destruct stop2; [discriminate|]. apply IH, H.
Qed.

Definition gmm_hangs_in (n : nat) (dt : F64) (goal : Z) (init : list Z) (g : grid F64) : bool :=
  match foldM gmm_init1 init (mkGmm g [] ninf) with Ok s => stuck_in n dt goal s | Fail _ => false end.
Lemma gmm_hangs dt goal init (g : grid F64) n : gmm_hangs_in n dt goal init g = true ->
  forall fuel, gmm_run fuel dt goal init g = Fail OutOfFuel.
Proof.
  unfold gmm_hangs_in, gmm_run. destruct (foldM gmm_init1 init (mkGmm g [] ninf)) as [s|]; [|discriminate]. cbn [bind].
  intros H fuel. eapply stuck_in_sound; exact H.
Qed.

(** A free 3x3 map of IEEE doubles with unit spacing and velocity, source 0: GMM never stops
    with step 0 and never stops with the positive step 2^-60; with the step setup() derives it stops. *)
Theorem C37_doubles_never_end :
  (forall fuel, gmm_run fuel (n0 : F64) noGoal [0] (new_grid [3;3] (n1 : F64)) = Fail OutOfFuel) /\
  (forall fuel, gmm_run fuel (ndiv n1 (nofZ (2 ^ 60)) : F64) noGoal [0] (new_grid [3;3] (n1 : F64)) = Fail OutOfFuel) /\
  nltb (n0 : F64) (ndiv n1 (nofZ (2 ^ 60))) = true /\
  (exists s, gmm_run 20 (gmm_setup_dt (nofZ (-1)) (new_grid [3;3] (n1 : F64))) noGoal [0] (new_grid [3;3] (n1 : F64)) = Ok s).
Proof.
  split; [|split; [|split]].
  - apply gmm_hangs with (n := 1%nat). vm_compute. reflexivity.
  - apply gmm_hangs with (n := 1%nat). vm_compute. reflexivity.
  - vm_compute. reflexivity.
  - assert (H : (match gmm_run 20 (gmm_setup_dt (nofZ (-1)) (new_grid [3;3] (n1 : F64))) noGoal [0] (new_grid [3;3] (n1 : F64)) with Ok _ => true | Fail _ => false end) = true)
      by (vm_compute; reflexivity).
    destruct (gmm_run 20 _ noGoal [0] _) as [s|]; [eauto|discriminate].
Qed.

(** the step of a unit-speed map, kept for a map of speed 2 whose own step would be 1/2 *)
Definition c37_fast : grid F64 :=
  match foldM (fun g i => setVelocity g i (nofZ 2)) [0;1;2;3;4;5;6;7;8] (new_grid [3;3] (n1 : F64)) with Ok g => g | Fail _ => new_grid [3;3] n1 end.
Theorem C37_step_is_kept_doubles :
  neqb (gmm_setup_dt (nofZ (-1)) (new_grid [3;3] (n1 : F64))) n1 = true /\
  nltb (gmm_setup_dt (nofZ (-1)) c37_fast) (gmm_setup_dt (gmm_setup_dt (nofZ (-1)) (new_grid [3;3] (n1 : F64))) c37_fast) = true.
Proof. split; vm_compute; reflexivity. Qed.

(** ** cases *)
(** ex_grid, sources 0 and 8: the corner 2 is later than one cell's crossing time *)
Example C37_case : exists X x, exact_solution [3;3] (fun i => In i [0;8]) (free ex_grid) (slow ex_grid) X /\
  adjacent [3;3] 0 1 /\ free ex_grid 1 /\ ~ In 1 [0;8] /\ X 2 = Some x /\ (slow ex_grid 1 < x)%R.
Proof.
  destruct C15_case as [HP [Hs [Hfr Hobs]]]. destruct C52_case as [X [HX [H0 [H4 _]]]]. exists X.
  assert (Hp : proper [3;3]) by (repeat constructor; lia).
  assert (Hfree : forall i, 0 <= i < 9 -> i <> 4 -> free ex_grid i).
  { intros i Hi Hne. destruct (getCell_in [3;3] ex_grid i ex_grid_ok ltac:(cbn; lia)) as [c Hc]. exists c. split; [exact Hc|].
    apply ex_grid_cells in Hc. destruct Hc as [_ ->]. destruct (Z.eqb_spec i 4); [contradiction|]. apply (nl_1_free XR XR_laws). }
  assert (Hslow : forall i, 0 <= i < 9 -> i <> 4 -> slow ex_grid i = 1%R).
  { intros i Hi Hne. unfold slow. destruct (getCell_in [3;3] ex_grid i ex_grid_ok ltac:(cbn; lia)) as [c Hc]. rewrite Hc.
    apply ex_grid_cells in Hc. destruct Hc as [_ ->]. destruct (Z.eqb_spec i 4); [contradiction|].
    destruct HP as [_ [_ [[[h [Hh _]] _] _]]]. replace (g_leaf ex_grid) with (XFin 1 : XR) by reflexivity.
    change (1 / 1 = 1)%R. field. }
  assert (Hadj : forall a b, 0 <= a < 9 -> In b (nbrs [3;3] a) -> adjacent [3;3] a b) by (intros a b Ha Hb; apply (nbrs_spec [3;3] a b Hp); auto).
  assert (Hreach : forall a b, 0 <= a < 9 -> a <> 4 -> ~ In a [0;8] -> In b (nbrs [3;3] a) -> X b <> None -> exists t, X a = Some t).
  { intros a b Ha H4' Hi Hb Hx. destruct (X a) as [t|] eqn:E; [eauto|]. exfalso. apply Hx.
    eapply (ex_inf _ _ _ _ _ HX a b); auto. }
  assert (H8 : X 8 = Some 0%R) by (apply (ex_src _ _ _ _ _ HX); right; left; reflexivity).
  destruct (Hreach 1 0) as [t1 H1]; [lia|lia|cbn; lia|cbn; auto|congruence|].
  destruct (Hreach 5 8) as [t5 H5]; [lia|lia|cbn; lia|cbn; auto|congruence|].
  destruct (Hreach 2 1) as [t2 H2]; [lia|lia|cbn; lia|cbn; auto|congruence|].
  assert (Heq : forall a t, 0 <= a < 9 -> a <> 4 -> ~ In a [0;8] -> X a = Some t -> upwind_sum (somes (dmins [3;3] X a)) t = 1%R).
  { intros a t Ha Hne Hi Ht. destruct (ex_eq _ _ _ _ _ HX a t (dmins [3;3] X a) Ht Hi (dmins_spec [3;3] X a Hp Ha)) as [_ E].
    rewrite Hslow in E by assumption. lra. }
  pose proof (ex_nonneg _ _ _ _ _ HX) as Hnn.
  pose proof (Hnn 1 t1 H1) as P1. pose proof (Hnn 2 t2 H2) as P2. pose proof (Hnn 5 t5 H5) as P5.
  assert (E1 : t1 = 1%R).
  { pose proof (Heq 1 t1 ltac:(lia) ltac:(lia) ltac:(cbn; lia) H1) as E.
    replace (dmins [3;3] X 1) with [Some (Rmin 0 t2); None : option R] in E by (cbn; rewrite H0, H2, H4; reflexivity).
    rewrite Rmin_left in E by lra. cbn [somes flat_map app] in E. rewrite US_cons in E. change (upwind_sum [] t1) with 0%R in E.
    rewrite Rmax_left in E by lra. unfold Rsqr in E. nra. }
  assert (E5 : t5 = 1%R).
  { pose proof (Heq 5 t5 ltac:(lia) ltac:(lia) ltac:(cbn; lia) H5) as E.
    replace (dmins [3;3] X 5) with [None : option R; Some (Rmin t2 0)] in E by (cbn; rewrite H8, H2, H4; reflexivity).
    rewrite Rmin_right in E by lra. cbn [somes flat_map app] in E. rewrite US_cons in E. change (upwind_sum [] t5) with 0%R in E.
    rewrite Rmax_left in E by lra. unfold Rsqr in E. nra. }
  pose proof (Heq 2 t2 ltac:(lia) ltac:(lia) ltac:(cbn; lia) H2) as E2. subst t1 t5.
  replace (dmins [3;3] X 2) with [Some 1%R; Some 1%R] in E2 by (cbn; rewrite H1, H5; reflexivity).
  cbn [somes flat_map app] in E2. rewrite !US_cons in E2. change (upwind_sum [] t2) with 0%R in E2.
  exists t2. split; [exact HX|]. split; [apply Hadj; [lia|cbn; auto]|]. split; [apply Hfree; lia|]. split; [cbn; lia|]. split; [exact H2|].
  rewrite Hslow by lia. destruct (Rle_dec t2 1) as [K|K]; [|lra]. exfalso. rewrite !Rmax_right in E2 by lra. unfold Rsqr in E2. lra.
Qed.

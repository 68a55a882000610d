(** Prop_Sign.v - property theorems C90: in doubles no arrival time is ever negative, whatever
    the rounding, overflow or NaN in the map; so FSM, LSM and DDQM never touch the time 0 of an
    initial point, and C88, C89 hold for FSM in doubles without a condition on the answer. *)
From Coq Require Import Reals Lra.
From Flocq Require Import Core IEEE754.BinarySingleNaN.
From Verif Require Import Base BaseFacts Num NumXR NumF64 NumLaws NumWf Grid GridFacts GridUpd GridMore Spec Obs Examples Eikonal FMMModel HeapLaws HeapRef
  SweepModel QueueModel UntidyModel Frame Evolve Bound FloatOps SolverModel Lifecycle Prop_FMM Prop_Heap Prop_History Prop_Calls Prop_Repeat Prop_Continue.
Open Scope Z_scope.

(** ** signs of the results of the double operations *)
(** not below zero (NaN, both zeros, positive, plus infinity) *)
Definition nn (x : f64) : bool := match x with B754_infinity true => false | B754_finite true _ _ _ => false | _ => true end.
(** not above zero *)
Definition np (x : f64) : bool := match x with B754_infinity false => false | B754_finite false _ _ _ => false | _ => true end.
(** the sign bit is clear *)
Definition ss (x : f64) : bool := match x with B754_zero s | B754_infinity s | B754_finite s _ _ _ => negb s | B754_nan => true end.

Lemma nn_ltb (x : f64) : Bltb x (f64_of_Z 0) = negb (nn x).
Proof. change (f64_of_Z 0) with (B754_zero false : f64). destruct x as [[]|[]| |[] m e B]; reflexivity. Qed.
Lemma nn_opp x : nn (Bopp x) = np x.
Proof. destruct x as [[]|[]| |[] m e B]; reflexivity. Qed.
Lemma ss_nn x : ss x = true -> nn x = true.
Proof. destruct x as [[]|[]| |[] m e B]; auto. Qed.

Open Scope R_scope.
Lemma nn_R (x : f64) : nn x = true -> 0 <= B2R x.
Proof. destruct x as [s|s| |[] m e B]; cbn [nn B2R]; intros H; [lra|lra|lra|discriminate H|]. apply F2R_ge_0. cbn. lia. Qed.
Lemma R_nn (x : f64) : is_finite x = true -> 0 <= B2R x -> nn x = true.
Proof. destruct x as [s|s| |[] m e B]; cbn [nn B2R is_finite]; intros F H; [reflexivity|discriminate F|discriminate F| |reflexivity]. exfalso. pose proof (F2R_lt_0 radix2 (Float radix2 (cond_Zopp true (Zpos m)) e) ltac:(cbn; lia)). lra. Qed.
Lemma R_np (x : f64) : is_finite x = true -> B2R x <= 0 -> np x = true.
Proof. destruct x as [s|s| |[] m e B]; cbn [np B2R is_finite]; intros F H; [reflexivity|discriminate F|discriminate F|reflexivity|]. exfalso. pose proof (F2R_gt_0 radix2 (Float radix2 (cond_Zopp false (Zpos m)) e) ltac:(cbn; lia)). lra. Qed.
Lemma sf_nn (x : f64) : B2SF x = SpecFloat.S754_infinity false -> nn x = true.
Proof. destruct x as [s|[]| |s m e B]; cbn; congruence. Qed.
Lemma sf_np (x : f64) : B2SF x = SpecFloat.S754_infinity true -> np x = true.
Proof. destruct x as [s|[]| |s m e B]; cbn; congruence. Qed.
Lemma rnd_nn r : 0 <= r -> 0 <= rnd r.
Proof. intros H. replace 0 with (rnd 0) by (unfold rnd; apply round_0; typeclasses eauto). apply rnd_le, H. Qed.
Lemma rnd_np r : r <= 0 -> rnd r <= 0.
Proof. intros H. replace 0 with (rnd 0) by (unfold rnd; apply round_0; typeclasses eauto). apply rnd_le, H. Qed.
Lemma rnd0_lt : Rlt_bool (Rabs (rnd 0)) (bpow radix2 emax64) = true.
Proof. apply Rlt_bool_true. unfold rnd. rewrite round_0 by typeclasses eauto. rewrite Rabs_R0. apply bpow_gt_0. Qed.

Lemma nn_plus x y : nn x = true -> nn y = true -> nn (Bplus mode_NE x y) = true.
Proof.
  intros Hx Hy. destruct (is_finite x) eqn:Fx; [|destruct x as [s|[]| |s m e B]; try discriminate; destruct y as [s'|[]| |s' m' e' B']; try discriminate; reflexivity].
  destruct (is_finite y) eqn:Fy; [|destruct y as [s|[]| |s m e B]; try discriminate; destruct x as [s'|[]| |s' m' e' B']; try discriminate; reflexivity].
  generalize (Bplus_correct prec64 emax64 Hprec64 Hmax64 mode_NE x y Fx Fy). fold (rnd (B2R x + B2R y)).
  pose proof (nn_R x Hx) as Rx. pose proof (nn_R y Hy) as Ry.
  destruct (Rlt_bool _ _) eqn:El.
  - intros [A [B _]]. apply R_nn; [exact B|]. rewrite A. apply rnd_nn. lra.
  - intros [A Es]. apply sf_nn. rewrite A.
    destruct (Bsign x) eqn:Sx; [exfalso|reflexivity]. 
    destruct x as [s|s| |[] m e B]; try discriminate. destruct y as [s'|s'| |[] m' e' B']; try discriminate.
    cbn [B2R] in El. rewrite Rplus_0_l, rnd0_lt in El. discriminate.
Qed.

Lemma np_mult x y : x = f64_of_Z (-2) -> nn y = true -> np (Bmult mode_NE x y) = true.
Proof.
  intros -> Hy. set (x := f64_of_Z (-2)). assert (Fx : is_finite x = true) by reflexivity. assert (Sx : Bsign x = true) by reflexivity.
  assert (Rx : B2R x = -2). { assert (K : Fin (f64_of_Z (-2)) (IZR (-2))) by (apply Fin_ofZ; lia). exact (proj2 K). }
  destruct (is_finite y) eqn:Fy; [|destruct y as [s|[]| |s m e B]; try discriminate; reflexivity].
  generalize (Bmult_correct prec64 emax64 Hprec64 Hmax64 mode_NE x y). fold (rnd (B2R x * B2R y)). pose proof (nn_R y Hy) as Ry.
  destruct (Rlt_bool _ _) eqn:El.
  - intros [A [B _]]. apply R_np; [rewrite B, Fx, Fy; reflexivity|]. rewrite A. apply rnd_np. rewrite Rx. lra.
  - intros A. apply sf_np. rewrite A, Sx. destruct y as [s|s| |[] m e B]; [|discriminate Fy|discriminate Fy|discriminate Hy|reflexivity].
    cbn [B2R] in El. rewrite Rmult_0_r, rnd0_lt in El. discriminate.
Qed.

Lemma ss_mult2 y : ss y = true -> ss (Bmult mode_NE (f64_of_Z 2) y) = true.
Proof.
  intros Hy. set (x := f64_of_Z 2). assert (Fx : is_finite x = true) by reflexivity. assert (Sx : Bsign x = false) by reflexivity.
  destruct (is_finite y) eqn:Fy; [|destruct y as [s|[]| |s m e B]; try discriminate; reflexivity].
  generalize (Bmult_correct prec64 emax64 Hprec64 Hmax64 mode_NE x y). fold (rnd (B2R x * B2R y)).
  assert (Sy : Bsign y = false) by (destruct y as [[]|[]| |[] m e B]; try discriminate; reflexivity).
  destruct (Rlt_bool _ _) eqn:El.
  - intros [A [B C]]. rewrite Fx, Fy in B. assert (Nn : is_nan (Bmult mode_NE x y) = false) by (destruct (Bmult mode_NE x y); try discriminate; reflexivity). specialize (C Nn). rewrite Sx, Sy in C.
    destruct (Bmult mode_NE x y) as [[]|[]| |[] m e B']; try discriminate; reflexivity.
  - intros A. rewrite Sx, Sy in A. destruct (Bmult mode_NE x y) as [[]|[]| |[] m e B']; try discriminate; reflexivity.
Qed.

Lemma ss_ofZ z : (0 <= z)%Z -> ss (f64_of_Z z) = true.
Proof.
  intros Hz. unfold f64_of_Z. pose proof (binary_normalize_correct prec64 emax64 Hprec64 Hmax64 mode_NE z 0 false) as K.
  set (y := binary_normalize prec64 emax64 Hprec64 Hmax64 mode_NE z 0 false) in *. cbv zeta in K.
  assert (Hr : 0 <= F2R (Float radix2 z 0)) by (apply F2R_ge_0; exact Hz).
  destruct (Rlt_bool _ _).
  - destruct K as [_ [F S]]. destruct (Rcompare_spec (F2R (Float radix2 z 0)) 0); [lra| |]; destruct y as [[]|[]| |[] m e B]; try discriminate; reflexivity.
  - rewrite Rlt_bool_false in K by exact Hr. destruct y as [[]|[]| |[] m e B]; try discriminate; reflexivity.
Qed.

Lemma nn_div x y : nn x = true -> ss y = true -> nn (Bdiv mode_NE x y) = true.
Proof.
  intros Hx Hy. destruct y as [[]|[]| |[] m e B]; try discriminate Hy; try (destruct x as [[]|[]| |[] m' e' B']; try discriminate; reflexivity).
  set (y := B754_finite false m e B). assert (Ry : 0 < B2R y) by (apply F2R_gt_0; cbn; lia). assert (Sy : Bsign y = false) by reflexivity. assert (Fy : is_finite y = true) by reflexivity. clearbody y.
  destruct (is_finite x) eqn:Fx; [|destruct x as [s|[]| |s m' e' B']; try discriminate; destruct y as [[]|[]| |[] m' e' B']; try discriminate; reflexivity].
  generalize (Bdiv_correct prec64 emax64 Hprec64 Hmax64 mode_NE x y ltac:(lra)). fold (rnd (B2R x / B2R y)). pose proof (nn_R x Hx) as Rx.
  assert (Rq : 0 <= B2R x / B2R y) by (apply Rmult_le_pos; [exact Rx|apply Rlt_le, Rinv_0_lt_compat, Ry]).
  destruct (Rlt_bool _ _) eqn:El.
  - intros [A [B1 _]]. apply R_nn; [rewrite B1; exact Fx|]. rewrite A. apply rnd_nn, Rq.
  - intros A. apply sf_nn. rewrite A, Sy. destruct x as [s|s| |[] m1 e1 B1]; [|discriminate Fx|discriminate Fx|discriminate Hx|reflexivity].
    cbn [B2R] in El. unfold Rdiv in El. rewrite Rmult_0_l, rnd0_lt in El. discriminate.
Qed.

Lemma nn_sqrt x : nn (Bsqrt mode_NE x) = true.
Proof.
  destruct x as [s|[]| |[] m e B]; try reflexivity. set (x := B754_finite false m e B).
  destruct (Bsqrt_correct prec64 emax64 Hprec64 Hmax64 mode_NE x) as [A [F _]]. apply R_nn; [exact F|]. rewrite A. fold (rnd (sqrt (B2R x))). apply rnd_nn, sqrt_pos.
Qed.
Close Scope R_scope.

(** ** the update *)
Lemma nn_ndims (h v : f64) used : nn h = true -> ss v = true -> (forall t, In t used -> nn t = true) -> nn (solveEikonalNDims (N := F64) h v used) = true.
Proof.
  intros Hh Hv Hu.
  assert (K : nn (let sumT := fold_left (fun s t => nadd (n := F64) s t) used n0 in let sumTT := fold_left (fun s t => nadd (n := F64) s (nmul t t)) used n0 in
     let a := nofZ (n := F64) (Z.of_nat (length used)) in let b := nmul (nofZ (-2)) sumT in let c := nsub sumTT (ndiv (nmul (n := F64) h h) (nmul (n := F64) v v)) in
     let quad := nsub (nmul b b) (nmul (nmul (nofZ 4) a) c) in if nltb quad n0 then ninf (n := F64) else ndiv (n := F64) (nadd (nopp b) (nsqrt quad)) (nmul (nofZ 2) a)) = true).
  { cbv zeta. match goal with |- nn (if ?b then _ else _) = _ => destruct b end; [reflexivity|].
    assert (Hs : nn (fold_left (fun s t => nadd (n := F64) s t) used n0) = true).
    { assert (G : forall l (a : f64), nn a = true -> (forall t, In t l -> nn t = true) -> nn (fold_left (fun s t => nadd (n := F64) s t) l a) = true).
      { induction l as [|t l IH]; intros a Ha Hl; cbn [fold_left]; [exact Ha|]. apply IH; [apply nn_plus; [exact Ha|apply Hl; left; reflexivity]|intros x Hx; apply Hl; right; exact Hx]. }
      apply G; [reflexivity|exact Hu]. }
    apply nn_div; [apply nn_plus; [|apply nn_sqrt]|apply ss_mult2, ss_ofZ; lia].
    change (nn (Bopp (Bmult mode_NE (f64_of_Z (-2)) (fold_left (fun s t => nadd (n := F64) s t) used n0))) = true). rewrite nn_opp. apply np_mult; [reflexivity|exact Hs]. }
  destruct used as [|t [|t2 r]]; [exact K| |exact K]. cbn [solveEikonalNDims]. apply nn_plus; [apply Hu; left; reflexivity|apply nn_div; assumption].
Qed.
Lemma nn_loop (h v : f64) rest : nn h = true -> ss v = true -> forall used, (forall t, In t (used ++ rest) -> nn t = true) -> nn (solve_loop (N := F64) h v used rest) = true.
Proof.
  intros Hh Hv. induction rest as [|t r IH]; intros used Hu; cbn [solve_loop].
  - apply nn_ndims; auto. intros t Ht. apply Hu, in_or_app; auto.
  - match goal with |- nn (if ?b then _ else _) = _ => destruct b end.
    + apply nn_ndims; auto. intros x Hx. apply Hu, in_or_app; auto.
    + apply IH. rewrite <- app_assoc. exact Hu.
Qed.

Lemma insert_in (N : Num) (x : N) l y : In y (insert_sorted x l) -> y = x \/ In y l.
Proof.
  induction l as [|z r IH]; cbn [insert_sorted]; [intros [<-|[]]; auto|]. destruct (nltb x z); cbn [In]; [intros [<-|H]; auto|]. intros [<-|H]; [auto|]. destruct (IH H); auto.
Qed.
Lemma isort_in (N : Num) (l : list N) y : In y (isort l) -> In y l.
Proof. induction l as [|x l IH]; cbn [isort]; [auto|]. intros H. destruct (insert_in _ _ _ _ H) as [->|K]; [left; reflexivity|right; auto]. Qed.

Lemma nn_values (h v : F64) (ts : list F64) : nn h = true -> ss v = true -> (forall t, In t ts -> nn t = true) -> nn (solve_values h v ts) = true.
Proof.
  intros Hh Hv Ht. unfold solve_values. pose proof (fun y => isort_in F64 ts y) as Hi. destruct (isort ts) as [|t r]; [reflexivity|].
  apply nn_loop; auto.
Qed.

(** ** the grid *)
(** no time of the grid is below zero, nor is the spacing *)
Definition not_below (d : F64) : Prop := nltb d n0 = false.
Definition no_negative (g : grid F64) : Prop := not_below (g_leaf g) /\ forall i d, time_is g i d -> not_below d.

Lemma not_below_nn d : not_below d <-> nn d = true.
Proof. unfold not_below. change (nltb d n0) with (Bltb d (f64_of_Z 0)). rewrite nn_ltb. destruct (nn d); cbn; intuition congruence. Qed.

Lemma free_ss (v : F64) : nltb v comp_margin = false -> ss v = true.
Proof.
  intros H. destruct v as [s|[]| |[] m e B]; try reflexivity; exfalso; revert H.
  - destruct s; vm_compute; discriminate.
  - vm_compute; discriminate.
  - cbn [nltb F64]. unfold Bltb, SpecFloat.SFltb. assert (E : exists m' e' B', comp_margin (N := F64) = B754_finite false m' e' B').
    { destruct (comp_margin (N := F64)) as [s|s| |[] m' e' B'] eqn:E; [| | | |do 3 eexists; reflexivity]; exfalso;
      assert (K : match comp_margin (N := F64) with B754_finite false _ _ _ => true | _ => false end = true) by (vm_compute; reflexivity); rewrite E in K; discriminate K. }
    destruct E as [m' [e' [B' ->]]]. cbn. discriminate.
Qed.

Lemma min_in (g : grid F64) i d m : getMinValueInDim g i d = Ok m -> exists j, time_is g j m.
Proof.
  unfold getMinValueInDim. intros H. apply bind_ok in H. destruct H as [ns [_ H]]. destruct ns as [|a [|b l]]; [discriminate| |].
  - exists a. exact H.
  - apply bind_ok in H. destruct H as [x [Hx H]]. apply bind_ok in H. destruct H as [y [Hy H]]. inversion H; subst; clear H. destruct (Bltb x y); [exists a|exists b]; assumption.
Qed.
Lemma collect_nn (g : grid F64) i ts : no_negative g -> collectT g i = Ok ts -> forall t, In t ts -> nn t = true.
Proof.
  intros [_ Hg] H. unfold collectT in H. refine (foldM_inv_partial (fun acc : list F64 => forall t, In t acc -> nn t = true) _ _ _ _ _ _ H); [intros t []|].
  intros acc d acc' _ Ha Hs. apply bind_ok in Hs. destruct Hs as [m [Hm Hs]]. apply bind_ok in Hs. destruct Hs as [own [_ Hs]].
  match type of Hs with (if ?b then _ else _) = _ => destruct b end; inversion Hs; subst; auto. intros t Ht. apply in_app_iff in Ht. destruct Ht as [Ht|[<-|[]]]; [auto|].
  apply min_in in Hm. destruct Hm as [j Hj]. apply not_below_nn, (Hg j m Hj).
Qed.
Lemma solve_nn (g : grid F64) i c t : no_negative g -> getCell g i = Ok c -> isOccupied c = false -> solveEikonal g i = Ok t -> not_below t.
Proof.
  intros Hg Hc Ho H. apply not_below_nn. unfold solveEikonal in H. apply bind_ok in H. destruct H as [ts [Hts H]]. pose proof (collect_nn g i ts Hg Hts) as Ht.
  destruct ts as [|a l]; [inversion H; subst; reflexivity|]. rewrite Hc in H. cbn [bind] in H. inversion H; subst; clear H.
  apply nn_values; [apply not_below_nn, Hg|apply free_ss, Ho|exact Ht].
Qed.

Lemma set_nn (g : grid F64) i t g' : no_negative g -> not_below t -> setArrivalTime g i t = Ok g' -> no_negative g'.
Proof.
  intros [A B] Ht H. destruct (updCell_fields _ _ _ _ H) as [_ [E _]]. split; [rewrite E; exact A|].
  intros j d Hd. unfold time_is, getArrivalTime in Hd. rewrite (updCell_get _ _ _ _ j H) in Hd. destruct (Z.eqb_spec i j) as [->|Hne]; [|exact (B j d Hd)].
  destruct (getCell g j) as [c|]; cbn in Hd; inversion Hd; subst. exact Ht.
Qed.
Lemma meta_time {N : Num} (g : grid N) i f g' j : meta f -> updCell g i f = Ok g' -> getArrivalTime g' j = getArrivalTime g j.
Proof.
  intros Hm H. unfold getArrivalTime. rewrite (updCell_get _ _ _ _ j H). destruct (Z.eqb_spec i j) as [->|]; [|reflexivity]. destruct (getCell g j) as [c|]; cbn; [|reflexivity]. f_equal. apply Hm.
Qed.
Lemma meta_nn (g : grid F64) i f g' : no_negative g -> meta f -> updCell g i f = Ok g' -> no_negative g'.
Proof.
  intros [A B] Hm H. destruct (updCell_fields _ _ _ _ H) as [_ [E _]]. split; [rewrite E; exact A|]. intros j d Hd. unfold time_is in Hd. rewrite (meta_time g i f g' j Hm H) in Hd. exact (B j d Hd).
Qed.
Lemma ev_nn init (g g' : grid F64) : ev init g g' -> no_negative g -> no_negative g'.
Proof.
  induction 1 as [g|g0 g i f g' _ IH Hm H|g0 g i g' _ IH Hi H|g0 g i t g' _ IH [c [Hc Ho]] Hs H]; intros Hg; [exact Hg| | |].
  - exact (meta_nn _ _ _ _ (IH Hg) Hm H).
  - refine (set_nn _ _ _ _ (IH Hg) _ H). reflexivity.
  - refine (set_nn _ _ _ _ (IH Hg) _ H). exact (solve_nn _ _ _ _ (IH Hg) Hc Ho Hs).
Qed.

(** ** C90: no time is ever negative.  Every solver, heap, heuristic, goal, tolerance; every
    double (NaN, infinite, subnormal, huge) as velocity. *)
Theorem C90_never_negative : forall (g : grid F64) init g', no_negative g -> solver_run g init g' -> forall i d, time_is g' i d -> not_below d.
Proof. intros g init g' Hg Hr. exact (proj2 (ev_nn init g g' (solver_ev g init g' Hr) Hg)). Qed.

(** a clean grid has no negative time *)
Lemma clean_nn dims (g : grid F64) : clean_grid dims g -> not_below (g_leaf g) -> no_negative g.
Proof.
  intros [_ Hc] Hl. split; [exact Hl|]. intros i d Hd. unfold time_is, getArrivalTime in Hd. destruct (getCell g i) as [c|] eqn:E; cbn in Hd; inversion Hd; subst.
  rewrite (proj1 (Hc i c E)). reflexivity.
Qed.

(** ** solvers that write a time only when it is better *)
Section Better.
Context {N : Num}.
Variable P : grid N -> Prop.
Hypothesis Pm : forall g i f g', P g -> meta f -> updCell g i f = Ok g' -> P g'.
Hypothesis Pb : forall g i c t g', P g -> getCell g i = Ok c -> isOccupied c = false -> solveEikonal g i = Ok t -> isTimeBetterThan t (c_val c) = true -> setArrivalTime g i t = Ok g' -> P g'.

Lemma P_st g i s g' : P g -> setState g i s = Ok g' -> P g'.
Proof. intros Hg H. eapply Pm; [exact Hg| |exact H]. intros c; auto. Qed.

Lemma loop_P solve fuel ms : (forall s i s' c, getCell (sw_g s) i = Ok c -> isOccupied c = false -> P (sw_g s) -> solve s i = Ok s' -> P (sw_g s')) ->
  forall sw incs s r, P (sw_g s) -> sweep_loop solve fuel ms sw incs s = Ok r -> P (sw_g (fst (fst r))).
Proof.
  intros Hsol. induction fuel as [|k IH]; intros sw incs s r Hs H; cbn [sweep_loop] in H; destruct (sw_keep s && negb (sw_stop s) && (sw <? ms)); try discriminate; try (inversion H; subst; exact Hs).
  apply bind_ok in H. destruct H as [s1 [H1 H]]. refine (IH _ _ _ _ _ H). unfold one_sweep in H1. refine (recIter_inv (fun s => P (sw_g s)) _ _ _ _ _ _ _ H1); [|exact Hs].
  intros s2 i s3 HP H2. unfold visit in H2. apply bind_ok in H2. destruct H2 as [c [Hc H2]]. destruct (isOccupied c) eqn:Eo; [inversion H2; subst; exact HP|]. eapply Hsol; eauto.
Qed.
Lemma fsm_P goal s i s' c : getCell (sw_g s) i = Ok c -> isOccupied c = false -> P (sw_g s) -> fsm_solveForIdx goal s i = Ok s' -> P (sw_g s').
Proof.
  intros Hc Ho HP H. unfold fsm_solveForIdx in H. apply bind_ok in H. destruct H as [pv [Hpv H]]. apply bind_ok in H. destruct H as [t [Ht H]].
  unfold getArrivalTime in Hpv. rewrite Hc in Hpv. cbn in Hpv. inversion Hpv; subst; clear Hpv. destruct (isTimeBetterThan t (c_val c)) eqn:Eb.
  - apply bind_ok in H. destruct H as [g' [Hg' H]]. inversion H; subst. cbn [sw_g]. eapply Pb; eauto.
  - match type of H with (if ?b then _ else _) = _ => destruct b end; inversion H; subst; exact HP.
Qed.
Lemma lsm_P goal s i s' c : getCell (sw_g s) i = Ok c -> isOccupied c = false -> P (sw_g s) -> lsm_solveForIdx goal s i = Ok s' -> P (sw_g s').
Proof.
  intros Hc Ho HP H. unfold lsm_solveForIdx in H. rewrite Hc in H. cbn [bind] in H. destruct (fmstate_eqb (c_state c) OPEN); [|inversion H; subst; exact HP].
  apply bind_ok in H. destruct H as [t [Ht H]]. apply bind_ok in H. destruct H as [s1 [H1 H]]. apply bind_ok in H. destruct H as [g3 [H3 H]]. inversion H; subst; clear H. cbn [sw_g].
  eapply P_st; [|exact H3]. destruct (isTimeBetterThan t (c_val c)) eqn:Eb.
  - apply bind_ok in H1. destruct H1 as [g1 [Hg1 H1]]. apply bind_ok in H1. destruct H1 as [ns [_ H1]]. apply bind_ok in H1. destruct H1 as [g2 [Hg2 H1]]. inversion H1; subst; clear H1. cbn [sw_g].
    refine (foldM_inv_partial P _ _ _ _ _ _ Hg2); [eapply Pb; eauto|]. intros g j g' _ Hg Hj. apply bind_ok in Hj. destruct Hj as [v [_ Hj]]. destruct (isTimeBetterThan t v); [eapply P_st; eauto|inversion Hj; subst; exact Hg].
  - match type of H1 with (if ?b then _ else _) = _ => destruct b end; inversion H1; subst; exact HP.
Qed.
Lemma ddqm_pop_P goal (s : dq_state (N := N)) i s' : P (dq_g s) -> ddqm_pop1 goal s i = Ok s' -> P (dq_g s').
Proof.
  intros HP H. unfold ddqm_pop1 in H. apply bind_ok in H. destruct H as [c [Hc H]]. destruct (isOccupied c) eqn:Eo; [inversion H; subst; exact HP|].
  apply bind_ok in H. destruct H as [t [Ht H]]. apply bind_ok in H. destruct H as [s1 [H1 H]]. apply bind_ok in H. destruct H as [g3 [H3 H]]. inversion H; subst; clear H. cbn [dq_g].
  eapply P_st; [|exact H3]. destruct (isTimeBetterThan t (c_val c)) eqn:Eb; [|inversion H1; subst; exact HP].
  apply bind_ok in H1. destruct H1 as [g1 [Hg1 H1]]. apply bind_ok in H1. destruct H1 as [ns [_ H1]].
  refine (foldM_inv_partial (fun s : dq_state (N := N) => P (dq_g s)) _ _ _ _ _ _ H1); [cbn [dq_g]; eapply Pb; eauto|].
  intros a n b _ Ha Hn. unfold ddqm_neighbor in Hn. apply bind_ok in Hn. destruct Hn as [cn [_ Hn]]. match type of Hn with (if ?b then _ else _) = _ => destruct b end; [|inversion Hn; subst; exact Ha].
  apply bind_ok in Hn. destruct Hn as [g' [Hg' Hn]]. match type of Hn with (if ?b then _ else _) = _ => destruct b end; inversion Hn; subst; cbn [dq_g]; eapply P_st; eauto.
Qed.
Lemma ddqm_loop_P goal : forall fuel (s s' : dq_state (N := N)), P (dq_g s) -> ddqm_loop fuel goal s = Ok s' -> P (dq_g s').
Proof.
  induction fuel as [|k IH]; intros s s' HP H; cbn in H; [discriminate|]. destruct (dq_lo s) as [|idx q] eqn:El.
  - destruct (dq_hi s), (dq_stop s); try (inversion H; subst; exact HP); refine (IH _ _ _ H); exact HP.
  - destruct (dq_stop s); [destruct (dq_hi s); inversion H; subst; exact HP|]. apply bind_ok in H. destruct H as [s1 [H1 H]]. refine (IH _ _ _ H). refine (ddqm_pop_P _ _ _ _ _ H1). exact HP.
Qed.
End Better.

Lemma zero_fine : not_below n0.
Proof. reflexivity. Qed.

Section Zero.
Variable init : list Z.
Definition ZP (g : grid F64) : Prop := no_negative g /\ forall i, In i init -> time_is g i n0.

Lemma ZP_m (g : grid F64) i f g' : ZP g -> meta f -> updCell g i f = Ok g' -> ZP g'.
Proof. intros [A B] Hm H. split; [exact (meta_nn _ _ _ _ A Hm H)|]. intros j Hj. unfold time_is. rewrite (meta_time _ _ _ _ j Hm H). exact (B j Hj). Qed.
Lemma ZP_b (g : grid F64) i c t g' : ZP g -> getCell g i = Ok c -> isOccupied c = false -> solveEikonal g i = Ok t -> isTimeBetterThan t (c_val c) = true -> setArrivalTime g i t = Ok g' -> ZP g'.
Proof.
  intros [A B] Hc Ho Ht Eb H. pose proof (solve_nn _ _ _ _ A Hc Ho Ht) as Hn. split; [exact (set_nn _ _ _ _ A Hn H)|]. intros j Hj. specialize (B j Hj).
  unfold time_is, getArrivalTime in *. rewrite (updCell_get _ _ _ _ j H). destruct (Z.eqb_spec i j) as [->|Hne]; [exfalso|exact B].
  rewrite Hc in B. cbn in B. inversion B as [E]. rewrite E in Eb. apply (nl_better_lt _ F64_laws) in Eb. unfold not_below in Hn. change (nltb t n0) with (nltb t (B754_zero false : F64)) in Hn. congruence.
Qed.
Lemma zero_set (g : grid F64) i g' j : setArrivalTime g i n0 = Ok g' -> time_is g j n0 -> time_is g' j n0.
Proof.
  intros H Hj. unfold time_is, getArrivalTime in *. rewrite (updCell_get _ _ _ _ j H). destruct (Z.eqb_spec i j) as [->|Hne]; [|exact Hj]. destruct (getCell g j); cbn in *; [reflexivity|discriminate].
Qed.
Lemma zero_here (g : grid F64) i g' : setArrivalTime g i n0 = Ok g' -> time_is g' i n0.
Proof.
  intros H. unfold time_is, getArrivalTime. rewrite (updCell_get _ _ _ _ i H), Z.eqb_refl. apply updCell_ok in H. destruct H as [c [Hc _]]. rewrite Hc. reflexivity.
Qed.
Lemma st_time (g : grid F64) i s g' j (d : F64) : setState g i s = Ok g' -> time_is g j d -> time_is g' j d.
Proof. intros H Hj. unfold time_is in *. rewrite (meta_time g i (fun c => with_state c s) g' j (fun c => conj eq_refl (conj eq_refl eq_refl)) H). exact Hj. Qed.

Lemma fsm_init_ZP (g g0 : grid F64) : no_negative g -> foldM (fun g i => setArrivalTime g i n0) init g = Ok g0 -> ZP g0.
Proof.
  intros Hg H. edestruct (fold_marks no_negative (fun i g => time_is g i n0)) as [A [B _]]; [| |exact H|split; [exact A|exact B]].
  - exact Hg.
  - intros s i s1 _ Hs Hst. cbn beta in Hst. split; [exact (set_nn _ _ _ _ Hs zero_fine Hst)|]. split; [exact (zero_here _ _ _ Hst)|]. intros j. apply zero_set with (1 := Hst).
Qed.
Lemma lsm_init_ZP (g g0 : grid F64) : no_negative g -> foldM lsm_init1 init g = Ok g0 -> ZP g0.
Proof.
  intros Hg H. edestruct (fold_marks no_negative (fun i g => time_is g i n0)) as [A [B _]]; [| |exact H|split; [exact A|exact B]].
  - exact Hg.
  - intros s i s1 _ Hs Hst. unfold lsm_init1 in Hst. apply bind_ok in Hst. destruct Hst as [g1 [H1 Hst]]. apply bind_ok in Hst. destruct Hst as [ns [_ Hst]].
    pose proof (set_nn _ _ _ _ Hs zero_fine H1) as N1.
    assert (K : no_negative s1 /\ forall j d, time_is g1 j d -> time_is s1 j d).
    { refine (foldM_inv_partial (fun g => no_negative g /\ forall j d, time_is g1 j d -> time_is g j d) _ _ _ _ (conj N1 (fun _ _ h => h)) _ Hst).
      intros a j b _ [Ha Hb] Hj. split; [refine (meta_nn _ _ _ _ Ha _ Hj); intros c; auto|]. intros k d Hk. exact (st_time _ _ _ _ _ _ Hj (Hb k d Hk)). }
    destruct K as [K1 K2]. split; [exact K1|]. split; [exact (K2 _ _ (zero_here _ _ _ H1))|]. intros j Hj. apply K2, (zero_set _ _ _ _ H1 Hj).
Qed.
Lemma ddqm_init_ZP (g : grid F64) q0 r : no_negative g -> foldM ddqm_init1 init (g, q0) = Ok r -> ZP (fst r).
Proof.
  intros Hg H. edestruct (fold_marks (fun s : grid F64 * list Z => no_negative (fst s)) (fun i s => time_is (fst s) i n0)) as [A [B _]]; [| |exact H|split; [exact A|exact B]].
  - exact Hg.
  - intros [ga qa] i s1 _ Hs Hst. cbn [fst] in *. unfold ddqm_init1 in Hst. apply bind_ok in Hst. destruct Hst as [g1 [H1 Hst]]. apply bind_ok in Hst. destruct Hst as [ns [_ Hst]].
    pose proof (set_nn _ _ _ _ Hs zero_fine H1) as N1.
    assert (K : no_negative (fst s1) /\ forall j d, time_is g1 j d -> time_is (fst s1) j d).
    { refine (foldM_inv_partial (fun s : grid F64 * list Z => no_negative (fst s) /\ forall j d, time_is g1 j d -> time_is (fst s) j d) _ _ _ _ _ _ Hst); [split; [exact N1|auto]|].
      intros [a qb] j b _ [Ha Hb] Hj. cbn [fst] in *. apply bind_ok in Hj. destruct Hj as [c [_ Hj]]. destruct (isOccupied c); [inversion Hj; subst; auto|]. apply bind_ok in Hj. destruct Hj as [g2 [H2 Hj]]. inversion Hj; subst; clear Hj. cbn [fst].
      split; [refine (meta_nn _ _ _ _ Ha _ H2); intros c1; auto|]. intros k d Hk. exact (st_time _ _ _ _ _ _ H2 (Hb k d Hk)). }
    destruct K as [K1 K2]. split; [exact K1|]. split; [exact (K2 _ _ (zero_here _ _ _ H1))|]. intros j Hj. apply K2, (zero_set _ _ _ _ H1 Hj).
Qed.
Lemma freeze_nn (g g' : grid F64) : no_negative g -> freeze_all g = Ok g' -> no_negative g'.
Proof. intros Hg H. refine (foldM_inv_partial no_negative _ _ _ _ Hg _ H). intros a j b _ Ha Hj. refine (meta_nn _ _ _ _ Ha _ Hj). intros c; auto. Qed.

Lemma fsm_ZP fuel ms goal sw incs (g : grid F64) s n incs' : no_negative g -> fsm_run fuel ms goal init sw incs g = Ok (s, n, incs') -> ZP (sw_g s).
Proof.
  intros Hg H. unfold fsm_run in H. apply bind_ok in H. destruct H as [g0 [H0 H]]. pose proof (fsm_init_ZP _ _ Hg H0) as HZ.
  exact (loop_P ZP _ _ _ (fsm_P ZP ZP_b goal) _ _ (mkSw g0 true false) _ HZ H).
Qed.
Lemma lsm_ZP fuel ms goal sw incs (g : grid F64) s n incs' : no_negative g -> lsm_run fuel ms goal init sw incs g = Ok (s, n, incs') -> ZP (sw_g s).
Proof.
  intros Hg H. unfold lsm_run in H. apply bind_ok in H. destruct H as [ga [Ha H]]. apply bind_ok in H. destruct H as [g0 [H0 H]]. pose proof (lsm_init_ZP _ _ (freeze_nn _ _ Hg Ha) H0) as HZ.
  exact (loop_P ZP _ _ _ (lsm_P ZP ZP_m ZP_b goal) _ _ (mkSw g0 true false) _ HZ H).
Qed.
Lemma ddqm_ZP fuel goal th step (g : grid F64) s : no_negative g -> ddqm_run fuel goal init th step g = Ok s -> ZP (dq_g s).
Proof.
  intros Hg H. unfold ddqm_run in H. apply bind_ok in H. destruct H as [ga [Ha H]]. apply bind_ok in H. destruct H as [[g0 q] [H0 H]]. pose proof (ddqm_init_ZP _ _ _ (freeze_nn _ _ Hg Ha) H0) as HZ. cbn [fst] in HZ.
  destruct q as [|a q]; [inversion H; subst; exact HZ|]. exact (ddqm_loop_P ZP ZP_m ZP_b _ _ _ _ (HZ : ZP (dq_g (mkDq g0 (a :: q) [] th step 0 0 false))) H).
Qed.
End Zero.

(** a run of FSM, LSM or DDQM: any goal, limit, direction, threshold and step *)
Inductive better_run (g : grid F64) (init : list Z) : grid F64 -> Prop :=
| br_fsm fuel maxSweeps goal sweeps incs s n incs' : fsm_run fuel maxSweeps goal init sweeps incs g = Ok (s, n, incs') -> better_run g init (sw_g s)
| br_lsm fuel maxSweeps goal sweeps incs s n incs' : lsm_run fuel maxSweeps goal init sweeps incs g = Ok (s, n, incs') -> better_run g init (sw_g s)
| br_ddqm fuel goal th step s : ddqm_run fuel goal init th step g = Ok s -> better_run g init (dq_g s).

Theorem C90_sources_stay_zero : forall (g : grid F64) init g', no_negative g -> better_run g init g' -> forall i, In i init -> time_is g' i n0.
Proof.
  intros g init g' Hg [fuel ms goal sw incs s n incs' H|fuel ms goal sw incs s n incs' H|fuel goal th step s H] i Hi.
  - exact (proj2 (fsm_ZP init _ _ _ _ _ _ _ _ _ Hg H) i Hi).
  - exact (proj2 (lsm_ZP init _ _ _ _ _ _ _ _ _ Hg H) i Hi).
  - exact (proj2 (ddqm_ZP init _ _ _ _ _ _ Hg H) i Hi).
Qed.

(** ** C88 and C89 for FSM in doubles *)
(** the spacing of the map is not negative *)
Definition fair (m : grid F64) : Prop := not_below (g_leaf m).

Lemma fsm_sources ms (m : grid F64) init goal f o g o1 g1 : good_map m -> points_in m init goal -> fair m ->
  a_env (fsm_api ms) (a_new (fsm_api ms)) (Some m) = Ok (o, g) -> a_comp (fsm_api ms) f (a_pts (fsm_api ms) o init goal) g = Ok (o1, g1) -> sources_at_zero init g1.
Proof.
  intros Hm Hp Hf He Hc. cbn in He. inversion He; subst; clear He. destruct (goal_setup m init goal Hm Hp) as [dims [_ [Hg [_ [_ Hset]]]]].
  cbn [a_comp a_pts fsm_api] in *. unfold fsm_compute, sweep_compute in *. cbn [fsm_setPoints fsm_new so_s so_sweeps so_max so_incs so_dims setInitialAndGoalPoints sv_setup sv_grid new_solver] in *.
  apply bind_ok in Hc. destruct Hc as [[oa ga] [Hx Hc]]. unfold fsm_setup in Hx at 1. cbn [so_s so_sweeps so_max so_dims] in Hx. apply bind_ok in Hx. destruct Hx as [[s1 gb] [H0 Hx]]. destruct (Hset _ H0) as [K1 _]. inversion K1; subst; clear K1 H0 Hset. inversion Hx; subst; clear Hx.
  cbn [goal_of sv_goal sv_init bind so_s so_sweeps so_max so_incs so_dims] in Hc. apply bind_ok in Hc. destruct Hc as [[[st n] incs] [Hrun Hc]]. inversion Hc; subst; clear Hc.
  intros i Hi. refine (C90_sources_stay_zero (setClean (clean m) false) init _ _ (br_fsm _ _ _ _ _ _ _ _ _ _ Hrun) i Hi).
  apply (clean_nn dims).
  - split; [exact Hg|]. intros j c Hj. destruct Hm as [Hfl _]. destruct (clean_default m Hfl j c Hj) as [A [B [_ D]]]. auto.
  - unfold fair in Hf. change (g_leaf (setClean (clean m) false)) with (g_leaf (clean m)). unfold clean. destruct (negb (g_clean m)); exact Hf.
Qed.

Theorem C90_fsm_repeat : forall ms (m : grid F64) init fuel o g o1 g1, good_map m -> fair m -> points_in m init (-1) ->
  a_env (fsm_api ms) (a_new (fsm_api ms)) (Some m) = Ok (o, g) -> a_comp (fsm_api ms) fuel (a_pts (fsm_api ms) o init (-1)) g = Ok (o1, g1) ->
  exists k, forall f fs, Forall (fun f => (k <= f)%nat) (f :: fs) ->
  exists o2 g2, perform (fsm_api ms) fsm_clear o1 g1 (map Compute (f :: fs)) = Ok (o2, g2) /\ only_sources init g1 g2.
Proof.
  intros ms m init fuel o g o1 g1 Hm Hf Hp He Hc. exact (C88_fsm F64 F64_laws ms m init fuel o g o1 g1 Hm Hp He Hc (fsm_sources ms m init _ _ _ _ _ _ Hm Hp Hf He Hc)).
Qed.
Theorem C90_fsm_continue : forall ms (m : grid F64) init goal f1 o g o1 g1, good_map m -> fair m -> points_in m init goal ->
  a_env (fsm_api ms) (a_new (fsm_api ms)) (Some m) = Ok (o, g) -> a_comp (fsm_api ms) f1 (a_pts (fsm_api ms) o init goal) g = Ok (o1, g1) ->
  forall g2, (exists f o2, a_comp (fsm_api ms) f (a_pts (fsm_api ms) o1 init (-1)) g1 = Ok (o2, g2)) <-> (exists f o2, a_comp (fsm_api ms) f (a_pts (fsm_api ms) o init (-1)) g = Ok (o2, g2)).
Proof.
  intros ms m init goal f1 o g o1 g1 Hm Hf Hp He Hc. exact (C89_fsm F64 F64_laws ms m init goal f1 o g o1 g1 Hm Hp He Hc (fsm_sources ms m init _ _ _ _ _ _ Hm Hp Hf He Hc)).
Qed.

(** *** cases *)
(** a 3x3 map whose velocities include NaN, infinity and the smallest subnormal, unit spacing *)
Definition c90_odd (h : F64) : grid F64 := vgrid [3;3] h ([n1; n1; (B754_nan : F64); n1; ninf; n1; ndiv n1 (nofZ (2 ^ 1000)); n1; n1] : list F64).
Definition c90_min (r : res (sw_state (N := F64) * Z * list Z)) : Z :=
  match r with Ok (s, _, _) => if existsb (fun c => nltb (c_val c) n0) (g_cells (sw_g s)) then 1 else if existsb (fun c => nltb n0 (c_val c) && negb (nisinf (c_val c))) (g_cells (sw_g s)) then 0 else 2 | _ => 3 end.
Example C90_case : no_negative (c90_odd n1) /\ good_map (c90_odd n1) /\ fair (c90_odd n1) /\ c90_min (fsm_run 50 1000 noGoal [0] 0 [1; 1] (c90_odd n1)) = 0.
Proof.
  assert (G : good_map (c90_odd n1)) by (apply vgrid_good; [split; [repeat (constructor; [lia|]); constructor|cbn; lia]|reflexivity]).
  split; [|split; [exact G|split; vm_compute; reflexivity]].
  apply (clean_nn [3;3]); [|reflexivity]. apply vgrid_clean. reflexivity.
Qed.
(** with a negative spacing the times do become negative: the condition on the spacing is needed *)
Example C90_needed : c90_min (fsm_run 50 4 noGoal [0] 0 [1; 1] (c90_odd (nofZ (-1)))) = 1.
Proof. vm_compute. reflexivity. Qed.

Print Assumptions C90_never_negative. Print Assumptions C90_sources_stay_zero. Print Assumptions C90_fsm_repeat. Print Assumptions C90_fsm_continue.

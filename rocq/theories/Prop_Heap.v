(** Prop_Heap.v - property theorems C23, C27, C50, C51: heuristics, SFMM's queue, the heap
    comparison and the occupancy threshold. *)
From Coq Require Import Reals Lra.
From Flocq Require Import Core IEEE754.BinarySingleNaN.
From Verif Require Import Base BaseFacts Num NumXR NumF64 NumLaws Grid GridFacts GridUpd GridMore Eikonal
  FMMModel HeapRef HeapLaws Spec Obs Examples.
Open Scope Z_scope.

(** the states FMM goes through at the head of its main loop, from a new solver *)
Inductive fmm_visits {N : Num} (HO : HeapOps N) (cfg : fmm_cfg) (init : list Z) (g : grid N) : fmm_state HO -> Prop :=
| fv_start st : foldM (fmm_init1 HO cfg) init (mkFst g (hempty HO)) = Ok st -> fmm_visits HO cfg init g st
| fv_step st m st' : fmm_visits HO cfg init g st -> fmm_step HO cfg st = Ok (Some (m, st')) -> fmm_visits HO cfg init g st'.

(** ** C27 *)
Definition z64 (z : Z) : F64 := nofZ z.
Definition half64 : F64 := ndiv (z64 1) (z64 2).

(** 3x2 map; source 5.  Cell 2 is improved while it is in the queue. *)
Definition c27_grid : grid F64 := vgrid [3;2] (n1 : F64) [z64 1; z64 2; half64; z64 1; z64 1; z64 1].

Fixpoint fmm_iter {N : Num} (HO : HeapOps N) (cfg : fmm_cfg) (n : nat) (st : fmm_state HO) : res (fmm_state HO) :=
  match n with
  | O => Ok st
  | S k => r <- fmm_step HO cfg st ;; match r with Some (_, st') => fmm_iter HO cfg k st' | None => Fail UB end
  end.

Lemma fmm_iter_visits {N : Num} (HO : HeapOps N) (cfg : fmm_cfg) init g n : forall st st',
  fmm_visits HO cfg init g st -> fmm_iter HO cfg n st = Ok st' -> fmm_visits HO cfg init g st'.
Proof.
  induction n as [|n IH]; intros st st' Hv H; cbn [fmm_iter] in H.
  - injection H as <-. exact Hv.
  - apply bind_ok in H. destruct H as [[[m s1]|] [H1 H]]; [|discriminate]. eapply IH; [|exact H]. eapply fv_step; eassumption.
Qed.

Definition c27_state : res (fmm_state (StdHeap (N := F64))) :=
  st <- foldM (fmm_init1 StdHeap no_heur) [5] (mkFst c27_grid (hempty StdHeap)) ;; fmm_iter StdHeap no_heur 3 st.

Theorem C27_sfmm_pops_a_non_minimal_cell :
  exists (g : grid F64) st m h x,
    clean_grid [3;2] g /\ points_ok [3;2] [5] /\ (forall i, 0 <= i < 6 -> free g i) /\
    fmm_visits (StdHeap (N := F64)) no_heur [5] g st /\
    hpop StdHeap (key (fs_g st)) (fs_h st) = Some (m, h) /\ In x (helems StdHeap (fs_h st)) /\
    nltb (key (fs_g st) x) (key (fs_g st) m) = true.
Proof.
  assert (H : match c27_state with
              | Ok st => match hpop (StdHeap (N := F64)) (key (fs_g st)) (fs_h st) with
                         | Some (m, _) => existsb (fun x => nltb (key (fs_g st) x) (key (fs_g st) m)) (helems StdHeap (fs_h st))
                         | None => false end
              | Fail _ => false end = true) by (vm_compute; reflexivity).
  unfold c27_state in H.
  destruct (foldM (fmm_init1 StdHeap no_heur) [5] (mkFst c27_grid (hempty StdHeap))) as [st0|] eqn:E0; [|discriminate H].
  cbn [bind] in H. destruct (fmm_iter StdHeap no_heur 3 st0) as [st|] eqn:E1; [|discriminate H].
  destruct (hpop (StdHeap (N := F64)) (key (fs_g st)) (fs_h st)) as [[m h]|] eqn:E2; [|discriminate H].
  apply existsb_exists in H. destruct H as [x [Hx Hlt]].
  exists c27_grid, st, m, h, x. split; [apply vgrid_clean; reflexivity|]. split; [split; [repeat constructor; intros []|intros i [<-|[]]; cbn; lia]|].
  split.
  { assert (Hall : forallb (fun i => match getCell c27_grid i with Ok c => negb (isOccupied c) | _ => false end) (zseq 6) = true)
      by (vm_compute; reflexivity).
    rewrite forallb_forall in Hall. intros i Hi.
    assert (Hin : In i (zseq 6)) by (unfold zseq; apply in_map_iff; exists (Z.to_nat i); split; [lia|apply in_seq; lia]).
    specialize (Hall i Hin). unfold free. destruct (getCell c27_grid i) as [c|]; [|discriminate].
    exists c. split; [reflexivity|]. destruct (isOccupied c); [discriminate|reflexivity]. }
  split; [|split; [exact E2|split; [exact Hx|exact Hlt]]].
  eapply fmm_iter_visits; [|exact E1]. apply fv_start. exact E0.
Qed.
Print Assumptions C27_sfmm_pops_a_non_minimal_cell.

(** and the arrival times it leaves are worse than FMM's: 3x3 map, source 3, cell 1 *)
Definition c27_grid3 : grid F64 :=
  vgrid [3;3] (n1 : F64) [z64 1; z64 1; z64 8; z64 1; half64; half64; z64 1; z64 20; z64 1].

Theorem C27_sfmm_times_differ_from_fmm :
  exists (g : grid F64) s1 log1 s2 log2 t1 t2,
    clean_grid [3;3] g /\ points_ok [3;3] [3] /\
    fmm_run (StdHeap (N := F64)) 50 no_heur noGoal [3] g (hempty StdHeap) = Ok (s1, log1) /\
    fmm_run (RefHeap (N := F64)) 50 no_heur noGoal [3] g (hempty RefHeap) = Ok (s2, log2) /\
    time_is (fs_g s1) 1 t1 /\ time_is (fs_g s2) 1 t2 /\ isTimeBetterThan t2 t1 = true.
Proof.
  assert (H : match fmm_run (StdHeap (N := F64)) 50 no_heur noGoal [3] c27_grid3 (hempty StdHeap),
                    fmm_run (RefHeap (N := F64)) 50 no_heur noGoal [3] c27_grid3 (hempty RefHeap) with
              | Ok (s1, _), Ok (s2, _) =>
                  match getArrivalTime (fs_g s1) 1, getArrivalTime (fs_g s2) 1 with
                  | Ok t1, Ok t2 => isTimeBetterThan t2 t1 | _, _ => false end
              | _, _ => false end = true) by (vm_compute; reflexivity).
  destruct (fmm_run (StdHeap (N := F64)) 50 no_heur noGoal [3] c27_grid3 (hempty StdHeap)) as [[s1 log1]|] eqn:E1; [|discriminate H].
  destruct (fmm_run (RefHeap (N := F64)) 50 no_heur noGoal [3] c27_grid3 (hempty RefHeap)) as [[s2 log2]|] eqn:E2; [|discriminate H].
  destruct (getArrivalTime (fs_g s1) 1) as [t1|] eqn:F1; [|discriminate H].
  destruct (getArrivalTime (fs_g s2) 1) as [t2|] eqn:F2; [|discriminate H].
  exists c27_grid3, s1, log1, s2, log2, t1, t2. split; [apply vgrid_clean; reflexivity|].
  split; [split; [repeat constructor; intros []|intros i [<-|[]]; cbn; lia]|].
  repeat split; assumption.
Qed.
Print Assumptions C27_sfmm_times_differ_from_fmm.

(** ** C23 *)
(** configuration FMM::setup leaves with heuristic [s] and the given goal (fmm.hpp:82, 152-160) *)
Definition star_cfg (s : HeurStrategy) (sh : shape) (goal : Z) : res (fmm_cfg (N := F64)) :=
  gc <- idx2coord sh goal ;; d <- precomputeDistances sh ;; Ok (mkCfg s d gc).

Definition c23_time : grid F64 := vgrid [3;2] (n1 : F64) [half64; z64 1; z64 2; z64 4; z64 1; z64 1].
Definition c23_dist : grid F64 := vgrid [3;2] (n1 : F64) [z64 4; half64; z64 4; z64 1; z64 1; z64 2].

Definition c23_differs (g : grid F64) (s : HeurStrategy) : bool :=
  match star_cfg s (g_sh g) 5 with
  | Ok cfg => match fmm_run (RefHeap (N := F64)) 50 cfg 5 [0] g (hempty RefHeap),
                    fmm_run (RefHeap (N := F64)) 50 no_heur 5 [0] g (hempty RefHeap) with
              | Ok (s1, _), Ok (s2, _) =>
                  match getArrivalTime (fs_g s1) 5, getArrivalTime (fs_g s2) 5 with
                  | Ok t1, Ok t2 => isTimeBetterThan t2 t1 | _, _ => false end
              | _, _ => false end
  | Fail _ => false end.

Lemma c23_differs_spec g s : c23_differs g s = true -> exists cfg s1 log1 s2 log2 t1 t2,
    star_cfg s (g_sh g) 5 = Ok cfg /\
    fmm_run (RefHeap (N := F64)) 50 cfg 5 [0] g (hempty RefHeap) = Ok (s1, log1) /\
    fmm_run (RefHeap (N := F64)) 50 no_heur 5 [0] g (hempty RefHeap) = Ok (s2, log2) /\
    time_is (fs_g s1) 5 t1 /\ time_is (fs_g s2) 5 t2 /\ isTimeBetterThan t2 t1 = true.
Proof.
  unfold c23_differs. intros H. destruct (star_cfg s (g_sh g) 5) as [cfg|] eqn:E0; [|discriminate H].
  destruct (fmm_run (RefHeap (N := F64)) 50 cfg 5 [0] g (hempty RefHeap)) as [[s1 log1]|] eqn:E1; [|discriminate H].
  destruct (fmm_run (RefHeap (N := F64)) 50 no_heur 5 [0] g (hempty RefHeap)) as [[s2 log2]|] eqn:E2; [|discriminate H].
  destruct (getArrivalTime (fs_g s1) 5) as [t1|] eqn:F1; [|discriminate H].
  destruct (getArrivalTime (fs_g s2) 5) as [t2|] eqn:F2; [|discriminate H].
  exists cfg, s1, log1, s2, log2, t1, t2. repeat split; assumption.
Qed.

(** With either heuristic there is a map on which the goal (cell 5 of a 3x2 grid, start
    0) gets a later arrival time than with plain FMM. *)
Theorem C23_fmm_star_changes_the_goal_time :
  forall s, s <> NOHEUR -> exists (g : grid F64) cfg s1 log1 s2 log2 t1 t2,
    clean_grid [3;2] g /\ star_cfg s (g_sh g) 5 = Ok cfg /\
    fmm_run (RefHeap (N := F64)) 50 cfg 5 [0] g (hempty RefHeap) = Ok (s1, log1) /\
    fmm_run (RefHeap (N := F64)) 50 no_heur 5 [0] g (hempty RefHeap) = Ok (s2, log2) /\
    time_is (fs_g s1) 5 t1 /\ time_is (fs_g s2) 5 t2 /\ isTimeBetterThan t2 t1 = true.
Proof.
  intros [| |] Hs; [congruence| |].
  - exists c23_time. destruct (c23_differs_spec c23_time TIME ltac:(vm_compute; reflexivity)) as [cfg [s1 [l1 [s2 [l2 [t1 [t2 H]]]]]]].
    exists cfg, s1, l1, s2, l2, t1, t2. split; [apply vgrid_clean; reflexivity|exact H].
  - exists c23_dist. destruct (c23_differs_spec c23_dist DISTANCE ltac:(vm_compute; reflexivity)) as [cfg [s1 [l1 [s2 [l2 [t1 [t2 H]]]]]]].
    exists cfg, s1, l1, s2, l2, t1, t2. split; [apply vgrid_clean; reflexivity|exact H].
Qed.
Print Assumptions C23_fmm_star_changes_the_goal_time.

(** ** C50 *)
(** [fmcompare k a b]: the heap regards [a] as having lower priority than [b].  On cells
    whose total is not NaN it is a strict weak order, for any arithmetic with
    the order laws of double. *)
Definition strict_weak_order {A} (P : A -> Prop) (lt : A -> A -> bool) : Prop :=
  (forall a, P a -> lt a a = false) /\
  (forall a b c, P a -> P b -> P c -> lt a b = true -> lt b c = true -> lt a c = true) /\
  (forall a b c, P a -> P b -> P c -> lt a b = false -> lt b a = false -> lt b c = false -> lt c b = false ->
     lt a c = false /\ lt c a = false).

Theorem C50_heap_comparison_is_a_strict_weak_order :
  forall (N : Num), NumLaws N -> forall k : Z -> N,
  strict_weak_order (fun i => nisnan (k i) = false) (fmcompare k).
Proof.
  intros N L k. unfold fmcompare. split; [|split].
  - intros a _. apply (nl_irrefl N L).
  - intros a b c _ _ _ H1 H2. exact (nl_trans N L _ _ _ H2 H1).
  - intros a b c Ha Hb Hc H1 H2 H3 H4. split.
    + destruct (nltb (k c) (k a)) eqn:E; [|reflexivity]. destruct (nl_cotrans N L _ (k b) _ Hb E); congruence.
    + destruct (nltb (k a) (k c)) eqn:E; [|reflexivity]. destruct (nl_cotrans N L _ (k b) _ Hb E); congruence.
Qed.
Print Assumptions C50_heap_comparison_is_a_strict_weak_order.

Theorem C50_holds_for_doubles : forall k : Z -> F64, strict_weak_order (fun i => nisnan (k i) = false) (fmcompare k).
Proof. exact (C50_heap_comparison_is_a_strict_weak_order F64 F64_laws). Qed.

(** With a NaN total incomparability is not transitive: 1 ~ NaN ~ 2 but 1 < 2.  The
    three cells are those of a 3x2 grid with times 1, 2, NaN. *)
Theorem C50_fails_with_nan :
  exists g : grid F64, grid_ok [3;2] g /\ ~ strict_weak_order (fun i => 0 <= i < 3) (fmcompare (key g)).
Proof.
  set (g0 := new_grid [3;2] (n1 : F64)).
  set (g := with_cells g0 (map (fun '(c, v) => with_val c v)
              (combine (g_cells g0) [z64 1; ndiv (z64 0) (z64 0); z64 2; z64 1; z64 1; z64 1]))).
  exists g. split; [split; vm_compute; reflexivity|]. intros [_ [_ H]].
  destruct (H 0 1 2 ltac:(lia) ltac:(lia) ltac:(lia)); try (vm_compute; reflexivity).
  assert (K : fmcompare (key g) 2 0 = true) by (vm_compute; reflexivity). congruence.
Qed.
Print Assumptions C50_fails_with_nan.

(** ** C51 *)
Definition margin_real : R := (100000 / 4503599627370496)%R. (* 1e5 * 2^-52 *)

Lemma f64_margin_value : B2R f64_margin = margin_real.
Proof.
  assert (H : match f64_margin with B754_finite s m e _ => (s, m, e) | _ => (true, 1%positive, 0) end = (false, 6871947673600000%positive, -88))
    by (vm_compute; reflexivity).
  destruct f64_margin as [| | |s m e He]; try discriminate H. injection H as -> -> ->.
  unfold B2R, F2R, margin_real. cbn [Fnum Fexp cond_Zopp]. change (bpow radix2 (-88)) with (/ IZR (2 ^ 88))%R.
  change (2 ^ 88) with (68719476736 * 4503599627370496). rewrite mult_IZR. lra.
Qed.

(** A cell is an obstacle exactly when its velocity, as a number, is below 1e5 epsilon. *)
Theorem C51_obstacle_iff_velocity_below_the_margin :
  forall (c : cell F64), isOccupied c = true <->
    ((is_finite (c_occ c : f64) = true /\ (B2R (c_occ c : f64) < margin_real)%R) \/ (c_occ c : f64) = B754_infinity true).
Proof.
  intros c. unfold isOccupied. change (nltb (c_occ c) comp_margin) with (Bltb (c_occ c : f64) f64_margin).
  rewrite Bltb_toX, (toX_finite f64_margin f64_margin_finite), f64_margin_value.
  destruct (c_occ c) as [sg|[|]| |sg m e He] eqn:E.
  - cbn [toX xltb]. rewrite Rltb_true. cbn. intuition discriminate.
  - cbn. intuition discriminate.
  - cbn. intuition discriminate.
  - cbn. intuition discriminate.
  - rewrite toX_finite by reflexivity. cbn [xltb is_finite]. rewrite Rltb_true. intuition discriminate.
Qed.
Print Assumptions C51_obstacle_iff_velocity_below_the_margin.

(** NaN counts as free *)
Theorem C51_nan_velocity_is_free :
  forall (N : Num), NumLaws N -> forall c : cell N, nisnan (c_occ c) = true -> isOccupied c = false.
Proof. intros N L c H. apply (nl_nan_l N L). exact H. Qed.
Print Assumptions C51_nan_velocity_is_free.

(** grey levels: of the 256 velocities k/255 only 0 is an obstacle *)
Theorem C51_grey_levels :
  forall (c : cell F64) k, 0 <= k <= 255 -> c_occ c = ndiv (nofZ k) (nofZ 255) ->
  (isOccupied c = true <-> k = 0).
Proof.
  intros c k Hk E. unfold isOccupied. rewrite E.
  assert (Hall : forallb (fun k => Bool.eqb (nltb (ndiv (nofZ k : F64) (nofZ 255)) comp_margin) (k =? 0)) (zseq 256) = true)
    by (vm_compute; reflexivity).
  rewrite forallb_forall in Hall.
  assert (Hin : In k (zseq 256)) by (unfold zseq; apply in_map_iff; exists (Z.to_nat k); split; [lia|apply in_seq; lia]).
  specialize (Hall k Hin). apply Bool.eqb_prop in Hall. rewrite Hall. apply Z.eqb_eq.
Qed.
Print Assumptions C51_grey_levels.

Example C51_case : isOccupied (with_occ (fresh_cell 0) (ndiv (nofZ 1 : F64) (nofZ 100000000000000))) = true /\
                   isOccupied (with_occ (fresh_cell 0) (ndiv (nofZ 1 : F64) (nofZ 10000000000))) = false.
Proof. split; vm_compute; reflexivity. Qed.

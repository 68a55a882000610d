(** Prop_Float.v - property theorems C76-C78: the solvers in IEEE double
    arithmetic against the exact solution of the discretised Eikonal equation. *)
From Coq Require Import Reals Lra Psatz.
From Flocq Require Import Core IEEE754.BinarySingleNaN.
From Verif Require Import Base BaseFacts Num NumXR NumF64 NumLaws Grid GridFacts GridUpd GridMore Spec Obs Eikonal
  FMMModel HeapRef HeapLaws SweepModel QueueModel FMMStruct EikR Solution XGrid FMMAbs Relax Exact Examples
  FloatOps FloatUpd FloatAbs FloatGrid FloatSweep FloatFMM DaryModel DaryHeap FibModel FibHeap
  Prop_FMM Prop_Sweep Prop_Bound Prop_Heap.
Open Scope Z_scope.

(** ** Specification *)

(** the double [d] is finite and denotes the real number [r] *)
Definition denotes (d : F64) (r : R) : Prop := is_finite d = true /\ B2R d = r.

(** The real quotient spacing / velocity of a cell: the right-hand side of the
    equation, computed without rounding from the doubles the map holds. *)
Definition cost (g : grid F64) (i : Z) (f : R) : Prop :=
  exists c h v, getCell g i = Ok c /\ denotes (g_leaf g) h /\ denotes (c_occ c) v /\ f = (h / v)%R.

(** A map of doubles with initial points: any shape the index arithmetic
    supports, a clean grid, distinct initial points inside it, spacing and the
    velocities of the free cells between 2^-200 and 2^200. *)
Definition double_problem (dims : list Z) (g : grid F64) (init : list Z) : Prop :=
  shape_ok dims /\ clean_grid dims g /\ points_ok dims init /\
  (exists h, denotes (g_leaf g) h /\ / 2 ^ 200 <= h <= 2 ^ 200)%R /\
  (forall i c, getCell g i = Ok c -> isOccupied c = false ->
     exists v, denotes (c_occ c) v /\ (/ 2 ^ 200 <= v <= 2 ^ 200)%R).

(** [flo] and [fhi] bound the costs of the free cells, and the grid is small
    enough for them: 512 n^4 ((N+3) fhi)^2 <= 2^53 flo^2 for N cells in n
    dimensions (with one velocity everywhere: up to a million cells in 2D). *)
Definition within_resolution (dims : list Z) (g : grid F64) (flo fhi : R) : Prop :=
  (0 < flo)%R /\ (0 <= fhi)%R /\ (forall i f, free g i -> cost g i f -> flo <= f <= fhi)%R /\
  (512 * INR (length dims) ^ 4 * ((IZR (box_size dims) + 3) * fhi) ^ 2 <= 2 ^ 53 * flo ^ 2)%R.

(** [X] is the exact solution of the discretised equation for this map, in real
    arithmetic, and [Xm] bounds its times *)
Definition exact_for (dims : list Z) (g : grid F64) (init : list Z) (X : time_map) (Xm : R) : Prop :=
  exists f, (forall i, free g i -> cost g i (f i)) /\
    exact_solution dims (fun i => In i init) (free g) f X /\ (forall i x, X i = Some x -> (x <= Xm)%R).

(** the relative errors *)
Definition err_below (dims : list Z) (flo fhi Xm : R) : R :=
  (96 * INR (length dims) ^ 4 * ((Xm + fhi) / flo) ^ 2 / 2 ^ 53)%R.
Definition err_above (dims : list Z) (flo fhi Xm : R) : R :=
  (3 * INR (length dims) * Rmargin / flo + 64 * INR (length dims) ^ 3 * ((2 * Xm + 5 * fhi) / flo) ^ 2 / 2 ^ 53)%R.

(** a run of one of the four solvers in doubles ended with grid [g'] *)
Inductive run64 (dims : list Z) (g : grid F64) (init : list Z) (goal : Z) : grid F64 -> Prop :=
| r64_fmm (HO : HeapOps F64) (HL : HeapLaws HO) fuel st log : separated dims g init ->
    fmm_outcome HO no_heur goal init g fuel st log -> run64 dims g init goal (fs_g st)
| r64_fsm fuel maxSweeps sweeps incs s n incs' : is_dir (length dims) incs ->
    fsm_run fuel maxSweeps goal init sweeps incs g = Ok (s, n, incs') -> run64 dims g init goal (sw_g s)
| r64_lsm fuel maxSweeps sweeps incs s n incs' : is_dir (length dims) incs ->
    lsm_run fuel maxSweeps goal init sweeps incs g = Ok (s, n, incs') -> run64 dims g init goal (sw_g s)
| r64_ddqm fuel th step s :
    ddqm_run fuel goal init th step g = Ok s -> run64 dims g init goal (dq_g s).

(** ... without a goal, and not cut off by the sweep limit *)
Inductive complete64 (dims : list Z) (g : grid F64) (init : list Z) : grid F64 -> Prop :=
| c64_fmm (HO : HeapOps F64) (HL : HeapLaws HO) fuel st log : separated dims g init ->
    fmm_outcome HO no_heur noGoal init g fuel st log -> complete64 dims g init (fs_g st)
| c64_fsm fuel maxSweeps sweeps incs s n incs' : is_dir (length dims) incs ->
    fsm_run fuel maxSweeps noGoal init sweeps incs g = Ok (s, n, incs') -> n < maxSweeps -> complete64 dims g init (sw_g s)
| c64_lsm fuel maxSweeps sweeps incs s n incs' : is_dir (length dims) incs ->
    lsm_run fuel maxSweeps noGoal init sweeps incs g = Ok (s, n, incs') -> n < maxSweeps -> complete64 dims g init (sw_g s)
| c64_ddqm fuel th step s :
    ddqm_run fuel noGoal init th step g = Ok s -> complete64 dims g init (dq_g s).

(** ** from the specification to the hypotheses of the proofs *)
Lemma pow53 : (2 ^ 53 = / uu)%R.
Proof. rewrite uu_val. lra. Qed.

Lemma pow200 : (2 ^ 200)%R = FloatErr.hi.
Proof. unfold FloatErr.hi. rewrite bpow_powerRZ. reflexivity. Qed.
Lemma pow_200 : (/ 2 ^ 200)%R = FloatErr.lo.
Proof. unfold FloatErr.lo. rewrite bpow_powerRZ. reflexivity. Qed.

Lemma dp_range dims g init : double_problem dims g init -> range_ok g.
Proof.
  intros [_ [_ [_ [[h [Hh Rh]] Hv]]]]. rewrite pow_200, pow200 in Rh. split; [exists h; auto|].
  intros i c Hc Ho. destruct (Hv i c Hc Ho) as [v [V1 V2]]. rewrite pow_200, pow200 in V2. exists v. auto.
Qed.

Lemma dp_cost dims g init i : double_problem dims g init -> free g i -> cost g i (slow64 g i).
Proof.
  intros HP Hf. destruct (free_slow g (dp_range _ _ _ HP) i Hf) as [c [h [v [Hc [_ [Fh [_ [Fv [_ E]]]]]]]]].
  exists c, h, v. auto.
Qed.

Lemma cost_unique g i f f' : cost g i f -> cost g i f' -> f = f'.
Proof.
  intros [c [h [v [A [[B1 B2] [[C1 C2] ->]]]]]] [c' [h' [v' [A' [[B1' B2'] [[C1' C2'] ->]]]]]].
  assert (c' = c) by congruence. subst c'. congruence.
Qed.

Lemma wr_bounds dims g init flo fhi : double_problem dims g init -> within_resolution dims g flo fhi ->
  forall i, free g i -> (flo <= slow64 g i <= fhi)%R.
Proof. intros HP [_ [_ [H _]]] i Hi. apply (H i); [exact Hi|]. eapply dp_cost; eauto. Qed.

Lemma NB_box dims : proper dims -> NB dims = IZR (box_size dims).
Proof.
  intros Hp. unfold NB. rewrite INR_IZR_INZ, Z2Nat.id; [reflexivity|]. pose proof (box_size_pos _ Hp). lia.
Qed.

Lemma wr_small dims g flo fhi : proper dims -> within_resolution dims g flo fhi ->
  (256 * (INR (length dims) * INR (length dims) * INR (length dims) * INR (length dims)) *
     (uu * ((Bmax dims fhi + 3 * fhi) * (Bmax dims fhi + 3 * fhi))) <= flo * flo)%R.
Proof.
  intros Hp [H1 [H2 [_ H]]]. unfold Bmax. rewrite (NB_box _ Hp). rewrite pow53 in H.
  pose proof (box_size_pos _ Hp) as Hb. assert (Hb1 : (1 <= IZR (box_size dims))%R) by (apply (IZR_le 1); lia).
  revert H Hb1. generalize (IZR (box_size dims)) as b, (INR (length dims)) as n. intros b n H Hb2.
  pose proof uu_pos as U. apply Rmult_le_compat_l with (r := uu) in H; [|lra].
  replace (uu * (/ uu * flo ^ 2))%R with (flo * flo)%R in H by (field; lra).
  eapply Rle_trans; [|exact H].
  assert (N4 : (0 <= n ^ 4)%R) by (replace (n ^ 4)%R with ((n * n) * (n * n))%R by ring; nra).
  assert (K : (256 * ((9 / 8 * fhi * b + 3 * fhi) * (9 / 8 * fhi * b + 3 * fhi)) <= 512 * ((b + 3) * fhi) ^ 2)%R).
  { replace (((b + 3) * fhi) ^ 2)%R with ((b + 3) * (b + 3) * (fhi * fhi))%R by ring.
    replace ((9 / 8 * fhi * b + 3 * fhi) * (9 / 8 * fhi * b + 3 * fhi))%R with ((9 / 8 * b + 3) * (9 / 8 * b + 3) * (fhi * fhi))%R by ring.
    assert (0 <= fhi * fhi)%R by nra. rewrite <- !Rmult_assoc. apply Rmult_le_compat_r; [assumption|]. nra. }
  replace (256 * (n * n * n * n) * (uu * ((9 / 8 * fhi * b + 3 * fhi) * (9 / 8 * fhi * b + 3 * fhi))))%R
    with (uu * n ^ 4 * (256 * ((9 / 8 * fhi * b + 3 * fhi) * (9 / 8 * fhi * b + 3 * fhi))))%R by ring.
  replace (uu * (512 * n ^ 4 * ((b + 3) * fhi) ^ 2))%R with (uu * n ^ 4 * (512 * ((b + 3) * fhi) ^ 2))%R by ring.
  apply Rmult_le_compat_l; [nra|exact K].
Qed.

Lemma err_below_eq dims flo fhi Xm : (0 < flo)%R -> err_below dims flo fhi Xm = kappa_lo dims flo fhi Xm.
Proof. intros H. unfold err_below, kappa_lo, dlt. rewrite pow53. pose proof uu_pos. field. lra. Qed.

Lemma err_above_eq dims flo fhi Xm : (0 < flo)%R -> err_above dims flo fhi Xm = kappa_hi dims flo fhi Xm.
Proof. intros H. unfold err_above, kappa_hi, slack_hi, dlt. rewrite pow53. pose proof uu_pos. field. lra. Qed.

Lemma exact_for_slow dims g init X Xm : double_problem dims g init -> exact_for dims g init X Xm ->
  exact_solution dims (fun i => In i init) (free g) (slow64 g) X /\ (forall i x, X i = Some x -> (x <= Xm)%R).
Proof.
  intros HP [f [Hf [HX Hm]]]. split; [|exact Hm]. destruct HX as [E1 E2 E3 E4 E5]. constructor; auto.
  intros i t ms Ht Hs Hms. destruct (E2 i t ms Ht Hs Hms) as [A B]. split; [exact A|].
  rewrite (cost_unique g i _ _ (dp_cost _ _ _ i HP A) (Hf i A)). exact B.
Qed.

(** the exact solution exists, and its times are bounded *)
Theorem C76_exact_solution_exists : forall dims g init flo fhi,
  double_problem dims g init -> within_resolution dims g flo fhi ->
  exists X, exact_for dims g init X (fhi * IZR (box_size dims)).
Proof.
  intros dims g init flo fhi HP HW. pose proof HP as [[H2 Hlt] [[Hg Hc] [[Hnd Hr] _]]].
  pose proof (dims2_proper' _ H2) as Hp. pose proof HW as [Hflo [Hfh _]].
  pose proof (wr_bounds _ _ _ _ _ HP HW) as Hfr.
  assert (Hf : forall i, free g i -> (0 < slow64 g i)%R) by (intros i Hi; specialize (Hfr i Hi); lra).
  destruct (exact_exists dims init (free g) (slow64 g) Hp Hf (free_dec g) Hr) as [X HX].
  exists X, (slow64 g). split; [intros i Hi; eapply dp_cost; eauto|]. split; [exact HX|].
  set (nn := Z.to_nat (box_size dims)).
  assert (G : forall r i x, (rank nn X i <= r)%nat -> X i = Some x -> (x <= fhi * INR (rank nn X i))%R).
  { induction r as [|r IH]; intros i x Hrk Hx; (destruct (in_dec Z.eq_dec i init) as [Hi|Hi];
      [rewrite (ex_src _ _ _ _ _ HX i Hi) in Hx; injection Hx as <-; apply Rmult_le_pos; [exact Hfh|apply pos_INR]|]);
      destruct (exact_ms dims init (free g) (slow64 g) Hp X HX i x Hx Hi) as [Hir [Hfi He]]; pose proof (Hfr i Hfi) as Hfir;
      (destruct (US_pos_has dims Hp X i x Hir ltac:(rewrite He; nra)) as [k0 [a0 [Ha0 [Hk0 Hlt0]]]]).
    - exfalso. pose proof (ex_range _ _ _ _ _ HX k0 a0 Hk0) as Kr.
      assert (rank nn X k0 < rank nn X i)%nat; [|lia]. apply rank_lt; [unfold nn; lia|]. unfold tlt. rewrite Hk0, Hx. destruct (Rlt_dec a0 x); [reflexivity|lra].
    - destruct (adjacent_adjacent_in _ _ _ Ha0) as [d [Hd Hj]]. pose proof (dmin_spec dims X i d Hp Hir Hd) as Hm.
      destruct (dmin dims X i d) as [m|] eqn:Em; [|rewrite (Hm k0 Hj) in Hk0; discriminate].
      destruct Hm as [[k [Kj Kx]] Hmin]. pose proof (Hmin k0 a0 Hj Hk0) as Hma.
      assert (Hin : In m (somes (dmins dims X i))) by (apply in_somes, in_dmins; eauto).
      pose proof (US_each _ x (slow64 g i) m ltac:(lra) ltac:(rewrite He; lra) Hin) as HU.
      assert (Hxm : (x <= m + slow64 g i)%R) by (pose proof (Rmax_l (x - m) 0); lra).
      pose proof (ex_range _ _ _ _ _ HX k m Kx) as Kr.
      assert (Hlt' : (rank nn X k < rank nn X i)%nat).
      { apply rank_lt; [unfold nn; lia|]. unfold tlt. rewrite Kx, Hx. destruct (Rlt_dec m x); [reflexivity|lra]. }
      pose proof (IH k m ltac:(lia) Kx) as IHk. apply le_INR in Hlt'. rewrite S_INR in Hlt'.
      assert (fhi * (INR (rank nn X k) + 1) <= fhi * INR (rank nn X i))%R by (apply Rmult_le_compat_l; lra). lra. }
  intros i x Hx. eapply Rle_trans; [apply (G _ i x (Nat.le_refl _) Hx)|]. apply Rmult_le_compat_l; [exact Hfh|].
  pose proof (rank_le nn X i) as R1. apply le_INR in R1. pose proof (NB_box _ Hp) as NBe. unfold NB in NBe. fold nn in NBe. lra.
Qed.
Print Assumptions C76_exact_solution_exists.


(** ** proofs *)

(** what the invariants of the proof give for the observable times *)
Lemma ok64_time (g : grid F64) i d : times_ok64 g -> time_is g i d ->
  d = ninf \/ exists t, denotes d t /\ (0 <= t)%R /\ times64 g i = Some t.
Proof.
  intros Hok Hd. unfold time_is, getArrivalTime in Hd. destruct (getCell g i) as [c|] eqn:Hc; [|discriminate].
  cbn [bind] in Hd. injection Hd as <-. destruct (Hok i c Hc) as [E|[r [E Hr]]].
  - left. destruct (c_val c) as [s|[]| |s m e B]; try discriminate E. reflexivity.
  - right. exists r. split; [exact (toX_Fin _ _ E)|]. split; [exact Hr|]. unfold times64, getArrivalTime. rewrite Hc. cbn [bind]. rewrite E. reflexivity.
Qed.

Lemma time64 (g : grid F64) i t : times64 g i = Some t -> exists d, time_is g i d /\ denotes d t.
Proof.
  unfold times64, time_is. destruct (getArrivalTime g i) as [d|]; [|discriminate]. intros H. exists d. split; [reflexivity|].
  destruct (toX d) as [r| | |] eqn:E; try discriminate. injection H as <-. exact (toX_Fin _ _ E).
Qed.

Lemma denotes64 (g : grid F64) i d t : time_is g i d -> denotes d t -> times64 g i = Some t.
Proof. intros H Hd. unfold times64. unfold time_is in H. rewrite H, (Fin_toX _ _ Hd). reflexivity. Qed.

Section Facts.
Variables (dims : list Z) (g : grid F64) (init : list Z) (flo fhi : R) (X : time_map) (Xm : R).
Hypothesis HP : double_problem dims g init.
Hypothesis HW : within_resolution dims g flo fhi.
Hypothesis HE : exact_for dims g init X Xm.

Lemma fmm_facts (HO : HeapOps F64) (HL : HeapLaws HO) goal fuel st log :
  separated dims g init -> fmm_outcome HO no_heur goal init g fuel st log ->
  frame (fun i => In i init) g (fs_g st) /\ times_ok64 (fs_g st) /\ FHead dims init g flo fhi X Xm (times64 (fs_g st)) (fun x => In x (helems HO (fs_h st))) log /\
  (helems HO (fs_h st) = [] \/ exists r, log = goal :: r) /\
  (forall i c, getCell (fs_g st) i = Ok c -> (c_state c = FROZEN <-> In i log)).
Proof.
  intros Hs Hout. pose proof HP as [[H2 Hlt] [[Hg Hc] [[Hnd Hr] _]]]. pose proof HW as [Hflo [Hfh _]].
  destruct (exact_for_slow _ _ _ _ _ HP HE) as [HX HXm].
  destruct (run_F HO HL dims H2 Hlt no_heur eq_refl init Hnd Hr g Hg (dp_range _ _ _ HP) Hc Hs flo fhi Hflo Hfh
    (wr_bounds _ _ _ _ _ HP HW) (wr_small _ _ _ _ (dims2_proper' _ H2) HW) X HX Xm HXm goal
    (Nat.max fuel (S (Z.to_nat (box_size dims)))) ltac:(lia)) as [st' [log' [Hrun [XS [HD Hend]]]]].
  pose proof (fmm_fuel HO no_heur goal init g fuel (Nat.max fuel (S (Z.to_nat (box_size dims)))) st log ltac:(lia) Hout) as Hout'.
  unfold fmm_outcome in Hout'. rewrite Hrun in Hout'. injection Hout' as <- <-.
  split; [exact (xs_frame _ _ _ _ _ _ _ _ XS)|]. split; [exact (xs_tok _ _ _ _ _ _ _ _ XS)|]. split; [exact HD|]. split; [exact Hend|]. exact (si_frozen _ _ _ _ _ _ _ (xs_s _ _ _ _ _ _ _ _ XS)).
Qed.

Lemma run_facts goal g' : run64 dims g init goal g' ->
  frame (fun i => In i init) g g' /\ times_ok64 g' /\ FSup dims init (free g) fhi (times64 g') /\ not_early dims flo fhi X Xm (times64 g').
Proof.
  pose proof HP as [[H2 Hlt] [[Hg Hc] [[Hnd Hr] _]]]. pose proof HW as [Hflo [Hfh _]].
  destruct (exact_for_slow _ _ _ _ _ HP HE) as [HX HXm].
  pose proof (dp_range _ _ _ HP) as Hrg. pose proof (wr_bounds _ _ _ _ _ HP HW) as Hfr.
  pose proof (wr_small _ _ _ _ (dims2_proper' _ H2) HW) as Hsm.
  assert (Hfre : forall i c, getCell g i = Ok c -> c_val c = ninf) by (intros i c K; apply (Hc i c K)).
  intros [HO HL fuel st log Hs H|fuel ms sw incs s n incs' Hd H|fuel ms sw incs s n incs' Hd H|fuel th step s H].
  - destruct (fmm_facts HO HL goal fuel st log Hs H) as [F [A [B _]]]. split; [exact F|]. split; [exact A|]. split; [apply (fh_s _ _ _ _ _ _ _ _ _ _ B)|apply (fh_n _ _ _ _ _ _ _ _ _ _ B)].
  - destruct (fsm_run_X dims H2 Hlt init Hr g Hg Hrg Hfre flo fhi Hflo Hfh Hfr Hsm X HX Xm HXm fuel ms goal sw incs _ Hd H) as [[F A B C] _]. auto.
  - destruct (lsm_run_X dims H2 Hlt init Hr g Hg Hrg Hfre flo fhi Hflo Hfh Hfr Hsm X HX Xm HXm fuel ms goal sw incs _ Hd H) as [[F A B C] _]. auto.
  - destruct (ddqm_run_X dims H2 Hlt init Hr g Hg Hrg Hfre flo fhi Hflo Hfh Hfr Hsm X HX Xm HXm fuel goal th step s H) as [[F A B C] _]. auto.
Qed.

Lemma complete_run g' : complete64 dims g init g' -> run64 dims g init noGoal g'.
Proof. intros []; [eapply r64_fmm|eapply r64_fsm|eapply r64_lsm|eapply r64_ddqm]; eauto. Qed.

Lemma complete_facts g' : (err_above dims flo fhi Xm <= 1)%R -> complete64 dims g init g' ->
  forall i x, X i = Some x -> exists t, times64 g' i = Some t /\ (t <= (1 + err_above dims flo fhi Xm) * x)%R.
Proof.
  pose proof HP as [[H2 Hlt] [[Hg Hc] [[Hnd Hr] _]]]. pose proof HW as [Hflo [Hfh _]]. rewrite err_above_eq by exact Hflo. intros Hk.
  pose proof (dims2_proper' _ H2) as Hp.
  destruct (exact_for_slow _ _ _ _ _ HP HE) as [HX HXm].
  pose proof (dp_range _ _ _ HP) as Hrg. pose proof (wr_bounds _ _ _ _ _ HP HW) as Hfr.
  pose proof (wr_small _ _ _ _ (dims2_proper' _ H2) HW) as Hsm.
  assert (Hfre : forall i c, getCell g i = Ok c -> c_val c = ninf) by (intros i c K; apply (Hc i c K)).
  assert (Hun : unset dims noGoal) by (unfold unset, noGoal; lia).
  assert (Hfix : forall g1, FSup dims init (free g) fhi (times64 g1) -> all_settled dims init g g1 ->
    forall i x, X i = Some x -> exists t, times64 g1 i = Some t /\ (t <= (1 + kappa_hi dims flo fhi Xm) * x)%R).
  { intros g1 S A. apply (fixpoint_not_late dims init (free g) (slow64 g) Hp flo fhi Hflo Hfr Hsm X HX Xm HXm Hk (times64 g1) S Hfh A). }
  intros [HO HL fuel st log Hs H|fuel ms sw incs s n incs' Hd H Hn|fuel ms sw incs s n incs' Hd H Hn|fuel th step s H].
  - destruct (fmm_facts HO HL noGoal fuel st log Hs H) as [_ [A [B [C _]]]]. intros i x Hx.
    assert (He : helems HO (fs_h st) = []).
    { destruct C as [C|[r ->]]; [exact C|exfalso]. pose proof (proj2 (fh_t _ _ _ _ _ _ _ _ _ _ B noGoal) (or_intror (or_introl eq_refl))) as K.
      destruct (times64 (fs_g st) noGoal) as [t|] eqn:E; [|congruence].
      pose proof (fs_rng _ _ _ _ _ (fh_s _ _ _ _ _ _ _ _ _ _ B) noGoal t E). unfold noGoal in *. lia. }
    assert (B' : FHead dims init g flo fhi X Xm (times64 (fs_g st)) (fun _ => False) log).
    { destruct B as [B1 B2 B3 B4 B5 B6]. rewrite He in *. constructor; auto. }
    pose proof (done_all dims H2 init g flo fhi Hflo Hfh Hfr Hsm X HX Xm HXm (times64 (fs_g st)) log Hk B' i x Hx) as Hin.
    destruct (times64 (fs_g st) i) as [t|] eqn:E; [|exfalso; apply (proj2 (fh_t _ _ _ _ _ _ _ _ _ _ B i) (or_intror Hin)), E].
    exists t. split; [reflexivity|]. eapply (fh_acc _ _ _ _ _ _ _ _ _ _ B); eauto.
  - destruct (fsm_run_X dims H2 Hlt init Hr g Hg Hrg Hfre flo fhi Hflo Hfh Hfr Hsm X HX Xm HXm fuel ms noGoal sw incs _ Hd H) as [[_ A B C] D]. auto.
  - destruct (lsm_run_X dims H2 Hlt init Hr g Hg Hrg Hfre flo fhi Hflo Hfh Hfr Hsm X HX Xm HXm fuel ms noGoal sw incs _ Hd H) as [[_ A B C] D]. auto.
  - destruct (ddqm_run_X dims H2 Hlt init Hr g Hg Hrg Hfre flo fhi Hflo Hfh Hfr Hsm X HX Xm HXm fuel noGoal th step s H) as [[_ A B C] D]. auto.
Qed.
End Facts.

(** ** C76: no NaN, no negative time, nothing early; any goal, any sweep limit *)
Theorem C76_doubles_are_never_early :
  forall dims g init flo fhi X Xm goal g' i d,
  double_problem dims g init -> within_resolution dims g flo fhi -> exact_for dims g init X Xm ->
  run64 dims g init goal g' -> time_is g' i d ->
  d = ninf \/
  exists t x, denotes d t /\ (0 <= t)%R /\ X i = Some x /\ ((1 - err_below dims flo fhi Xm) * x <= t)%R.
Proof.
  intros dims g init flo fhi X Xm goal g' i d HP HW HE Hrun Hd.
  destruct (run_facts dims g init flo fhi X Xm HP HW HE goal g' Hrun) as [_ [A [_ C]]].
  destruct (ok64_time g' i d A Hd) as [E|[t [E1 [E2 E3]]]]; [left; exact E|right].
  destruct (C i t E3) as [x [Hx Hle]]. exists t, x. pose proof HW as [Hflo _]. rewrite err_below_eq by exact Hflo. auto.
Qed.
Print Assumptions C76_doubles_are_never_early.

(** initial points keep time 0, whatever the goal *)
Theorem C76_doubles_sources_at_zero :
  forall dims g init flo fhi goal g' i,
  double_problem dims g init -> within_resolution dims g flo fhi ->
  run64 dims g init goal g' -> In i init -> exists d, time_is g' i d /\ denotes d 0.
Proof.
  intros dims g init flo fhi goal g' i HP HW Hrun Hi.
  destruct (C76_exact_solution_exists dims g init flo fhi HP HW) as [X HE].
  destruct (run_facts dims g init flo fhi X _ HP HW HE goal g' Hrun) as [_ [_ [B _]]].
  apply time64. apply (fs_src _ _ _ _ _ B i Hi).
Qed.

(** ** C77: complete runs *)
Theorem C77_doubles_are_accurate :
  forall dims g init flo fhi X Xm g' i,
  double_problem dims g init -> within_resolution dims g flo fhi -> exact_for dims g init X Xm ->
  (err_above dims flo fhi Xm <= 1)%R -> complete64 dims g init g' -> 0 <= i < box_size dims ->
  match X i with
  | None => time_is g' i ninf
  | Some x => exists d t, time_is g' i d /\ denotes d t /\
      ((1 - err_below dims flo fhi Xm) * x <= t <= (1 + err_above dims flo fhi Xm) * x)%R
  end.
Proof.
  intros dims g init flo fhi X Xm g' i HP HW HE Hk Hrun Hi. pose proof HW as [Hflo _].
  destruct (run_facts dims g init flo fhi X Xm HP HW HE noGoal g' (complete_run _ _ _ _ Hrun)) as [F [A [B C]]].
  pose proof (complete_facts dims g init flo fhi X Xm HP HW HE g' Hk Hrun) as D.
  destruct (X i) as [x|] eqn:Hx.
  - destruct (D i x Hx) as [t [Ht Hle]]. destruct (time64 g' i t Ht) as [d [D1 D2]]. exists d, t. split; [exact D1|]. split; [exact D2|].
    split; [|exact Hle]. destruct (C i t Ht) as [x' [Hx' L]]. rewrite Hx in Hx'. injection Hx' as <-. rewrite err_below_eq by exact Hflo. exact L.
  - assert (Hg' : exists d, time_is g' i d).
    { pose proof HP as [_ [[Hg _] _]]. destruct (getCell_in dims g i Hg Hi) as [c Hc].
      destruct F as [_ [_ [_ [_ [_ F]]]]]. destruct (F i c Hc) as [c' [Hc' _]]. exists (c_val c'). unfold time_is, getArrivalTime. rewrite Hc'. reflexivity. }
    destruct Hg' as [d Hd]. destruct (ok64_time g' i d A Hd) as [->|[t [_ [_ E]]]]; [exact Hd|exfalso].
    destruct (C i t E) as [x' [Hx' _]]. congruence.
Qed.
Print Assumptions C77_doubles_are_accurate.

(** two complete runs of any of the four solvers agree within the two errors *)
Theorem C77_solvers_agree_in_doubles :
  forall dims g init flo fhi X Xm g1 g2 i d1 t1,
  double_problem dims g init -> within_resolution dims g flo fhi -> exact_for dims g init X Xm ->
  (err_above dims flo fhi Xm <= 1)%R -> complete64 dims g init g1 -> complete64 dims g init g2 ->
  time_is g1 i d1 -> denotes d1 t1 ->
  exists d2 t2 x, time_is g2 i d2 /\ denotes d2 t2 /\ X i = Some x /\
    (Rabs (t1 - t2) <= (err_below dims flo fhi Xm + err_above dims flo fhi Xm) * x)%R.
Proof.
  intros dims g init flo fhi X Xm g1 g2 i d1 t1 HP HW HE Hk R1 R2 Hd1 Ht1.
  pose proof (denotes64 _ _ _ _ Hd1 Ht1) as E1.
  destruct (run_facts dims g init flo fhi X Xm HP HW HE noGoal g1 (complete_run _ _ _ _ R1)) as [_ [_ [B C]]].
  destruct (C i t1 E1) as [x [Hx _]].
  pose proof (fs_rng _ _ _ _ _ B i t1 E1) as Hi.
  pose proof (C77_doubles_are_accurate dims g init flo fhi X Xm g1 i HP HW HE Hk R1 Hi) as A1.
  pose proof (C77_doubles_are_accurate dims g init flo fhi X Xm g2 i HP HW HE Hk R2 Hi) as A2.
  rewrite Hx in A1, A2. destruct A1 as [d [t [T1 [T2 T3]]]], A2 as [d2 [t2 [U1 [U2 U3]]]].
  assert (t = t1) by (pose proof (denotes64 _ _ _ _ T1 T2); congruence). subst t.
  exists d2, t2, x. split; [exact U1|]. split; [exact U2|]. split; [exact Hx|]. apply Rabs_le. lra.
Qed.

(** every one of the four has a complete run, with any heap *)
Theorem C77_all_solvers_have_a_result :
  forall (HO : HeapOps F64) (HL : HeapLaws HO) dims g init flo fhi th step,
  double_problem dims g init -> within_resolution dims g flo fhi ->
  (separated dims g init -> exists st log fuel, fmm_outcome HO no_heur noGoal init g fuel st log) /\
  (exists maxSweeps s n incs fuel, fsm_run fuel maxSweeps noGoal init 0 (init_incs (length dims)) g = Ok (s, n, incs) /\ n < maxSweeps) /\
  (exists maxSweeps s n incs fuel, lsm_run fuel maxSweeps noGoal init 0 (init_incs (length dims)) g = Ok (s, n, incs) /\ n < maxSweeps) /\
  (exists s fuel, ddqm_run fuel noGoal init th step g = Ok s).
Proof.
  intros HO HL dims g init flo fhi th step HP HW. pose proof HP as [Hsh [[Hg Hc] [[Hnd Hr] _]]]. pose proof Hsh as [H2 Hlt].
  pose proof HW as [Hflo [Hfh _]]. destruct (C76_exact_solution_exists dims g init flo fhi HP HW) as [X HE].
  destruct (exact_for_slow _ _ _ _ _ HP HE) as [HX HXm]. split; [|split; [|split]].
  - intros Hs. destruct (run_F HO HL dims H2 Hlt no_heur eq_refl init Hnd Hr g Hg (dp_range _ _ _ HP) Hc Hs flo fhi Hflo Hfh
      (wr_bounds _ _ _ _ _ HP HW) (wr_small _ _ _ _ (dims2_proper' _ H2) HW) X HX _ HXm noGoal
      (S (Z.to_nat (box_size dims))) ltac:(lia)) as [st [log [Hrun _]]]. exists st, log, (S (Z.to_nat (box_size dims))). exact Hrun.
  - destruct (C32_fsm_stops_by_itself_doubles dims g init noGoal (init_incs (length dims)) Hsh Hg Hr (C30_initial_directions _)) as [k [s [n [incs H]]]].
    exists (n + 1), s, n, incs, k. split; [apply H; lia|lia].
  - destruct (C32_lsm_stops_by_itself_doubles dims g init noGoal (init_incs (length dims)) Hsh Hg Hr (C30_initial_directions _)) as [k [s [n [incs H]]]].
    exists (n + 1), s, n, incs, k. split; [apply H; lia|lia].
  - destruct (C35_ddqm_terminates_doubles dims g init noGoal th step Hsh Hg Hr) as [k [r H]]. exists r, k. apply H. lia.
Qed.

(** ** C78: FMM stopped early by a goal *)
Theorem C78_accepted_cells_are_accurate :
  forall (HO : HeapOps F64) (HL : HeapLaws HO) dims g init flo fhi X Xm goal fuel st log i c,
  double_problem dims g init -> within_resolution dims g flo fhi -> exact_for dims g init X Xm ->
  (err_above dims flo fhi Xm <= 1)%R -> separated dims g init ->
  fmm_outcome HO no_heur goal init g fuel st log ->
  getCell (fs_g st) i = Ok c -> c_state c = FROZEN ->
  exists t x, denotes (c_val c) t /\ X i = Some x /\
    ((1 - err_below dims flo fhi Xm) * x <= t <= (1 + err_above dims flo fhi Xm) * x)%R.
Proof.
  intros HO HL dims g init flo fhi X Xm goal fuel st log i c HP HW HE Hk Hs H Hc Hfz. pose proof HW as [Hflo _].
  destruct (fmm_facts dims g init flo fhi X Xm HP HW HE HO HL goal fuel st log Hs H) as [_ [A [B [_ D]]]].
  apply (D i c Hc) in Hfz. destruct (times64 (fs_g st) i) as [t|] eqn:E; [|exfalso; apply (proj2 (fh_t _ _ _ _ _ _ _ _ _ _ B i) (or_intror Hfz)), E].
  destruct (fh_n _ _ _ _ _ _ _ _ _ _ B i t E) as [x [Hx Hl]]. exists t, x.
  rewrite err_above_eq in Hk by exact Hflo.
  pose proof (fh_acc _ _ _ _ _ _ _ _ _ _ B Hk i x t Hfz Hx E) as Hu. rewrite err_below_eq, err_above_eq by exact Hflo.
  split; [|auto]. destruct (time64 _ _ _ E) as [d [E1 E2]]. unfold time_is, getArrivalTime in E1. rewrite Hc in E1. cbn [bind] in E1.
  injection E1 as ->. exact E2.
Qed.
Print Assumptions C78_accepted_cells_are_accurate.

(** a reachable goal is accepted, with an accurate time *)
Theorem C78_goal_time_is_accurate :
  forall (HO : HeapOps F64) (HL : HeapLaws HO) dims g init flo fhi X Xm goal fuel st log x,
  double_problem dims g init -> within_resolution dims g flo fhi -> exact_for dims g init X Xm ->
  (err_above dims flo fhi Xm <= 1)%R -> separated dims g init ->
  fmm_outcome HO no_heur goal init g fuel st log -> X goal = Some x ->
  exists d t, time_is (fs_g st) goal d /\ denotes d t /\
    ((1 - err_below dims flo fhi Xm) * x <= t <= (1 + err_above dims flo fhi Xm) * x)%R.
Proof.
  intros HO HL dims g init flo fhi X Xm goal fuel st log x HP HW HE Hk Hs H Hx. pose proof HW as [Hflo [Hfh _]].
  pose proof HP as [[H2 _] _]. destruct (exact_for_slow _ _ _ _ _ HP HE) as [HX HXm].
  destruct (fmm_facts dims g init flo fhi X Xm HP HW HE HO HL goal fuel st log Hs H) as [_ [A [B [C D]]]].
  rewrite err_above_eq in * by exact Hflo. rewrite err_below_eq by exact Hflo.
  assert (Hin : In goal log).
  { destruct C as [C|[r ->]]; [|left; reflexivity].
    apply (done_all dims H2 init g flo fhi Hflo Hfh (wr_bounds _ _ _ _ _ HP HW) (wr_small _ _ _ _ (dims2_proper' _ H2) HW) X HX Xm HXm (times64 (fs_g st)) log Hk) with (x := x); [|exact Hx].
    destruct B as [B1 B2 B3 B4 B5 B6]. rewrite C in *. constructor; auto. }
  destruct (times64 (fs_g st) goal) as [t|] eqn:E; [|exfalso; apply (proj2 (fh_t _ _ _ _ _ _ _ _ _ _ B goal) (or_intror Hin)), E].
  destruct (fh_n _ _ _ _ _ _ _ _ _ _ B goal t E) as [x' [Hx' Hl]]. rewrite Hx in Hx'. injection Hx' as <-.
  pose proof (fh_acc _ _ _ _ _ _ _ _ _ _ B Hk goal x t Hin Hx E) as Hu.
  destruct (time64 _ _ _ E) as [d [E1 E2]]. exists d, t. auto.
Qed.

(** with the heaps the library instantiates FMM with *)
Theorem C77_fmm_with_the_library_heaps :
  forall dims g init fuel, separated dims g init ->
  (forall st log, fmm_outcome (DaryHeap (N := F64)) no_heur noGoal init g fuel st log -> complete64 dims g init (fs_g st)) /\
  (forall st log, fmm_outcome (FibHeap (N := F64)) no_heur noGoal init g fuel st log -> complete64 dims g init (fs_g st)).
Proof.
  intros dims g init fuel Hs. split; intros st log H.
  - eapply (c64_fmm dims g init DaryHeap (DaryLaws F64_laws)); eauto.
  - eapply (c64_fmm dims g init FibHeap (FibLaws F64_laws)); eauto.
Qed.

(** ** A concrete problem: 3x3 cells, velocities 1, 2 and 4, an obstacle in the
    middle, two initial points in opposite corners. *)
Definition c77_grid : grid F64 := vgrid [3;3] (n1 : F64) [z64 1; z64 1; z64 2; z64 1; z64 0; z64 4; z64 1; z64 1; z64 1].

Lemma c77_cells i c : getCell c77_grid i = Ok c ->
  c_occ c = z64 0 \/ exists z, c_occ c = z64 z /\ 1 <= z <= 4.
Proof.
  unfold getCell. intros H. apply vget_ok in H. destruct H as [_ H]. apply nth_error_In in H.
  unfold c77_grid, vgrid, with_cells in H. cbn [g_cells] in H. apply in_map_iff in H. destruct H as [[k v] [<- H]].
  cbn [with_occ c_occ]. apply in_combine_r in H. cbn [In] in H.
  repeat (destruct H as [<-|H]; [first [left; reflexivity | right; exists 1; split; [reflexivity|lia] | right; exists 2; split; [reflexivity|lia] | right; exists 4; split; [reflexivity|lia]]|]).
  destruct H.
Qed.

Lemma c77_free_occ i c : getCell c77_grid i = Ok c -> isOccupied c = false -> exists z, c_occ c = z64 z /\ 1 <= z <= 4.
Proof.
  intros Hc Ho. destruct (c77_cells i c Hc) as [E|E]; [exfalso|exact E]. unfold isOccupied in Ho. rewrite E in Ho. vm_compute in Ho. discriminate.
Qed.

Lemma denotes_Z z : Z.abs z <= 9007199254740992 -> denotes (z64 z) (IZR z).
Proof. exact (Fin_ofZ z). Qed.

Lemma pow200_big : (4 <= 2 ^ 200)%R.
Proof. replace 4%R with (2 ^ 2)%R by lra. apply Rle_pow; [lra|lia]. Qed.

Example C77_case :
  double_problem [3;3] c77_grid [0;8] /\ within_resolution [3;3] c77_grid (1/4) 1 /\ separated [3;3] c77_grid [0;8] /\
  (exists X, exact_for [3;3] c77_grid [0;8] X 9 /\ X 0 = Some 0%R) /\
  (0 <= err_below ([3;3])%Z (1/4) 1 9 <= / 10 ^ 9)%R /\ (err_above ([3;3])%Z (1/4) 1 9 <= / 10 ^ 8)%R /\
  exists g', complete64 [3;3] c77_grid [0;8] g'.
Proof.
  assert (Hsh : shape_ok [3;3]) by (split; [repeat constructor; lia|cbn; lia]).
  assert (HP : double_problem [3;3] c77_grid [0;8]).
  { split; [exact Hsh|]. split; [apply vgrid_clean; reflexivity|]. split.
    - split; [repeat constructor; cbn; intuition lia|]. intros i [<-|[<-|[]]]; cbn; lia.
    - pose proof pow200_big as B. assert (B' : (/ 2 ^ 200 <= 1)%R).
      { rewrite <- Rinv_1. apply Rinv_le_contravar; lra. }
      split.
      + exists 1%R. split; [exact (denotes_Z 1 ltac:(lia))|lra].
      + intros i c Hc Ho. destruct (c77_free_occ i c Hc Ho) as [z [-> Hz]]. exists (IZR z). split; [apply denotes_Z; lia|].
        destruct Hz as [Z1 Z2]. apply IZR_le in Z1, Z2. lra. }
  assert (HW : within_resolution [3;3] c77_grid (1/4) 1).
  { split; [lra|]. split; [lra|]. split.
    - intros i f [c0 [Hc0 Ho]] [c [h [v [Hc [[_ Hh] [[_ Hv] ->]]]]]]. assert (c0 = c) by congruence. subst c0.
      destruct (c77_free_occ i c Hc Ho) as [z [E Hz]]. rewrite E in Hv. rewrite (proj2 (denotes_Z z ltac:(lia))) in Hv.
      change (g_leaf c77_grid) with (z64 1) in Hh. rewrite (proj2 (denotes_Z 1 ltac:(lia))) in Hh. subst h v.
      destruct Hz as [Z1 Z2]. apply IZR_le in Z1, Z2. unfold Rdiv. rewrite !Rmult_1_l. split; [|rewrite <- Rinv_1]; apply Rinv_le_contravar; lra.
    - change (box_size [3;3]) with 9. cbn [length INR]. lra. }
  assert (HS : separated [3;3] c77_grid [0;8]).
  { intros i j Hi Hj Ha. exfalso. assert (Hp : proper [3;3]) by (repeat constructor; lia).
    assert (Hin : In j (nbrs [3;3] i)) by (apply nbrs_spec; [exact Hp|apply (adjacent_range _ _ _ Ha)|exact Ha]).
    destruct Hi as [<-|[<-|[]]]; cbn in Hin; destruct Hj as [<-|[<-|[]]]; lia. }
  split; [exact HP|]. split; [exact HW|]. split; [exact HS|]. split; [|split; [|split]].
  - destruct (C76_exact_solution_exists _ _ _ _ _ HP HW) as [X HX]. exists X. 
    replace (1 * IZR (box_size [3;3]%Z))%R with 9%R in HX by (cbn; lra). split; [exact HX|].
    destruct HX as [f [_ [HX _]]]. apply (ex_src _ _ _ _ _ HX 0). left; reflexivity.
  - unfold err_below. cbn [length INR]. replace ((9 + 1) / (1 / 4))%R with 40%R by field. lra.
  - unfold err_above, Rmargin. cbn [length INR]. replace ((2 * 9 + 5 * 1) / (1 / 4))%R with 92%R by field.
    match goal with |- context [(?a / (1 / 4))%R] => replace (a / (1 / 4))%R with (4 * a)%R by field end. lra.
  - destruct (proj1 (C77_all_solvers_have_a_result RefHeap (RefHeap_laws F64_laws) _ _ _ _ _ (z64 0) (z64 1) HP HW) HS) as [st [log [fuel H]]].
    exists (fs_g st). eapply (c64_fmm _ _ _ RefHeap (RefHeap_laws F64_laws)); eauto.
Qed.

(** the resolution is no restriction for two-dimensional maps with one velocity
    and up to a million cells *)
Theorem C77_uniform_maps_are_within_resolution :
  forall a b (g : grid F64) f, 2 <= a -> 2 <= b -> a * b <= 1000000 -> (0 < f)%R ->
  (forall i f', free g i -> cost g i f' -> f' = f) -> within_resolution [a; b] g f f.
Proof.
  intros a b g f Ha Hb Hab Hf Hc. split; [exact Hf|]. split; [lra|]. split.
  - intros i f' Hi Hf'. rewrite (Hc i f' Hi Hf'). lra.
  - cbn [length INR]. change (box_size [a; b]) with (a * (b * 1)). rewrite Z.mul_1_r.
    assert (H1 : 4 <= a * b) by nia. apply IZR_le in Hab. apply IZR_le in H1. revert Hab H1. generalize (IZR (a * b)) as N. intros N H2 H1.
    replace (((N + 3) * f) ^ 2)%R with ((N + 3) * (N + 3) * f ^ 2)%R by ring.
    rewrite <- !Rmult_assoc. apply Rmult_le_compat_r; [apply pow_le; lra|]. nra.
Qed.

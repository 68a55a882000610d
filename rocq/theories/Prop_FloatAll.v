(** Prop_FloatAll.v - property theorem C81: the solvers that only lower times (SFMM, FMM*,
    SFMM*, FMM over any narrow band, UFMM, GMM) in IEEE doubles: no NaN, no negative and no
    absurdly large time, nothing earlier than the exact solution, and who gets a time. *)
From Coq Require Import Reals Lra Permutation.
From Flocq Require Import Core IEEE754.BinarySingleNaN.
From Verif Require Import Base BaseFacts Num NumXR NumF64 NumLaws Grid GridFacts GridUpd GridMore Spec Obs Eikonal
  FMMModel HeapRef HeapLaws BagHeap QueueModel UntidyModel UntidySpec Untidy Frame Evolve FMMStruct UFMMStruct SFMMStruct EikR Solution XGrid FMMAbs Relax Exact Examples
  FloatOps FloatUpd FloatAbs FloatGrid FloatSweep FloatEv DaryModel DaryHeap FibModel FibHeap
  Prop_FMM Prop_Star Prop_Bound Prop_Heap Prop_SFMM Prop_UFMM Prop_Float.
Open Scope Z_scope.

(** ** Specification *)

(** one initial point, or initial points on obstacles only *)
Definition quiet_sources (g : grid F64) (init : list Z) : Prop :=
  (forall i, In i init -> obstacle g i) \/ (exists s, init = [s]).

(** a run in doubles ended with grid [g']: FMM, SFMM, FMM* or SFMM* over any narrow band that
    keeps its content ([BagLaws]: the three heaps of the library are [StdBag], [DaryBag],
    [FibBag]) with any heuristic configuration; UFMM with any band; GMM with any step *)
Inductive run64more (dims : list Z) (g : grid F64) (init : list Z) (goal : Z) : grid F64 -> Prop :=
| m64_fmm (HO : HeapOps F64) (BL : BagLaws HO) cfg fuel st log : quiet_sources g init ->
    fmm_outcome HO cfg goal init g fuel st log -> run64more dims g init goal (fs_g st)
| m64_ufmm fuel size inc s log : separated dims g init -> band_ok size inc ->
    ufmm_run fuel goal init g (uq_new size inc) = Ok (s, log) -> run64more dims g init goal (uf_g s)
| m64_gmm fuel dt src s : init = [src] ->
    gmm_run fuel dt goal init g = Ok s -> run64more dims g init goal (gm_g s).

(** ** proofs *)
Lemma quiet_free g init : quiet_sources g init -> (forall i, In i init -> ~ free g i) \/ (exists s, init = [s]).
Proof.
  intros [H|H]; [left|right; exact H]. intros k Hk [c0 [E1 E2]]. destruct (H k Hk) as [c1 [E3 E4]]. congruence.
Qed.

Section Facts.
Variables (dims : list Z) (g : grid F64) (init : list Z) (flo fhi : R) (X : time_map) (Xm : R).
Hypothesis HP : double_problem dims g init.
Hypothesis HW : within_resolution dims g flo fhi.
Hypothesis HE : exact_for dims g init X Xm.
Let HX := proj1 (exact_for_slow _ _ _ _ _ HP HE).
Let HXm := proj2 (exact_for_slow _ _ _ _ _ HP HE).

Lemma fmm_GX (HO : HeapOps F64) (BL : BagLaws HO) cfg goal fuel st log : quiet_sources g init -> fmm_outcome HO cfg goal init g fuel st log ->
  GX dims init g flo fhi X Xm (fs_g st) /\ forall i c, getCell (fs_g st) i = Ok c -> c_state c <> OPEN -> times64 (fs_g st) i <> None.
Proof.
  intros Hq H. pose proof HP as [[H2 Hlt] [[Hg Hc] [[Hnd Hr] _]]]. pose proof HW as [Hflo [Hfh _]].
  destruct (fmm_run_HF dims H2 Hlt init Hr g Hg (dp_range _ _ _ HP) (fun i c K => proj1 (Hc i c K)) (fun i c K => proj1 (proj2 (Hc i c K))) flo fhi Hflo Hfh
    (wr_bounds _ _ _ _ _ HP HW) (wr_small _ _ _ _ (dims2_proper' _ H2) HW) X HX Xm HXm HO cfg BL goal fuel st log (quiet_free _ _ Hq) H) as [A [_ [_ [_ B]]]].
  split; [exact A|exact B].
Qed.

Lemma ufmm_GX goal fuel size inc s log : separated dims g init -> band_ok size inc -> ufmm_run fuel goal init g (uq_new size inc) = Ok (s, log) ->
  GX dims init g flo fhi X Xm (uf_g s) /\ forall i c, getCell (uf_g s) i = Ok c -> c_state c <> OPEN -> times64 (uf_g s) i <> None.
Proof.
  intros Hs [[Hz1 Hz2] Hcast] H. pose proof HP as [[H2 Hlt] [[Hg Hc] [[Hnd Hr] _]]]. pose proof HW as [Hflo [Hfh _]].
  destruct (UI_new (N := F64) size inc Hz1) as [U B].
  destruct (ufmm_run_PX dims H2 Hlt init Hr g Hg (dp_range _ _ _ HP) (fun i c K => proj1 (Hc i c K)) (fun i c K => proj1 (proj2 (Hc i c K))) flo fhi Hflo Hfh
    (wr_bounds _ _ _ _ _ HP HW) (wr_small _ _ _ _ (dims2_proper' _ H2) HW) X HX Xm HXm Hs Hnd goal fuel (uq_new size inc) s log U B Hz2 Hcast H) as [A1 A2].
  split; [exact A1|]. intros i c Hci Hst. apply (A2 i (c_state c)); [apply cst_get; exact Hci|exact Hst].
Qed.

Lemma more_GX goal g' : run64more dims g init goal g' -> GX dims init g flo fhi X Xm g'.
Proof.
  pose proof HP as [[H2 Hlt] [[Hg Hc] [[Hnd Hr] _]]]. pose proof HW as [Hflo [Hfh _]].
  intros [HO BL cfg fuel st log Hq H|fuel size inc s log Hs Hb H|fuel dt src s E H].
  - exact (proj1 (fmm_GX HO BL cfg goal fuel st log Hq H)).
  - exact (proj1 (ufmm_GX goal fuel size inc s log Hs Hb H)).
  - exact (gmm_run_GX dims H2 Hlt init Hr g Hg (dp_range _ _ _ HP) (fun i c K => proj1 (Hc i c K)) (fun i c K => proj1 (proj2 (Hc i c K))) flo fhi Hflo Hfh
    (wr_bounds _ _ _ _ _ HP HW) (wr_small _ _ _ _ (dims2_proper' _ H2) HW) X HX Xm HXm src E fuel dt goal s H).
Qed.
End Facts.

(** ** C81 *)
Theorem C81_never_early_and_bounded :
  forall dims g init flo fhi X Xm goal g' i d,
  double_problem dims g init -> within_resolution dims g flo fhi -> exact_for dims g init X Xm ->
  run64more dims g init goal g' -> time_is g' i d ->
  d = ninf \/
  exists t x, denotes d t /\ (0 <= t <= 9 / 8 * fhi * IZR (box_size dims))%R /\ X i = Some x /\ ((1 - err_below dims flo fhi Xm) * x <= t)%R.
Proof.
  intros dims g init flo fhi X Xm goal g' i d HP HW HE Hrun Hd. pose proof HP as [[H2 _] _].
  destruct (more_GX dims g init flo fhi X Xm HP HW HE goal g' Hrun) as [_ A B C].
  destruct (ok64_time g' i d A Hd) as [E|[t [E1 [E2 E3]]]]; [left; exact E|right].
  destruct (C i t E3) as [x [Hx Hle]]. exists t, x. pose proof HW as [Hflo [Hfh _]]. rewrite err_below_eq by exact Hflo.
  pose proof (fs_bound dims init (free g) fhi (times64 g') i t B Hfh E3) as Hb. unfold Bmax in Hb. rewrite (NB_box _ (dims2_proper' _ H2)) in Hb. auto.
Qed.
Print Assumptions C81_never_early_and_bounded.

Theorem C81_sources_at_zero :
  forall dims g init flo fhi goal g' i,
  double_problem dims g init -> within_resolution dims g flo fhi ->
  run64more dims g init goal g' -> In i init -> exists d, time_is g' i d /\ denotes d 0.
Proof.
  intros dims g init flo fhi goal g' i HP HW Hrun Hi.
  destruct (C76_exact_solution_exists dims g init flo fhi HP HW) as [X HE].
  destruct (more_GX dims g init flo fhi X _ HP HW HE goal g' Hrun) as [_ _ B _].
  apply time64. apply (fs_src _ _ _ _ _ B i Hi).
Qed.

Lemma fsup_reach dims init fr fhi (T : time_map) : FSup dims init fr fhi T ->
  forall n i t, (rank (Z.to_nat (box_size dims)) T i < n)%nat -> T i = Some t -> reachable dims (fun k => In k init) fr i.
Proof.
  intros S. induction n as [|n IH]; intros i t Hn Ht; [lia|].
  destruct (in_dec Z.eq_dec i init) as [Hi|Hi]; [apply reach_src; exact Hi|].
  destruct (fs_reached _ _ _ _ _ S i t Ht Hi) as [_ [Hf [k [s [K1 [K2 K3]]]]]].
  apply reach_step with (i := k); [|apply adjacent_sym; exact K1|exact Hf]. apply (IH k s); [|exact K2].
  enough ((rank (Z.to_nat (box_size dims)) T k < rank (Z.to_nat (box_size dims)) T i)%nat) by lia.
  unfold rank. apply (filter_lt _ _ _ k).
  - intros x Hx. unfold tlt in *. rewrite K2 in Hx. rewrite Ht. destruct (T x) as [b|]; [|discriminate].
    destruct (Rlt_dec b s) as [L|L]; [|discriminate]. destruct (Rlt_dec b t); [reflexivity|lra].
  - apply in_zseq. pose proof (fs_rng _ _ _ _ _ S k s K2). lia.
  - apply tlt_irrefl.
  - unfold tlt. rewrite K2, Ht. destruct (Rlt_dec s t); [reflexivity|lra].
Qed.

Lemma finite_reach dims g init flo fhi X Xm g' i t :
  GX dims init g flo fhi X Xm g' -> times64 g' i = Some t -> reachable dims (fun k => In k init) (free g) i.
Proof. intros [_ _ B _] Ht. exact (fsup_reach _ _ _ _ _ B _ i t (Nat.lt_succ_diag_r _) Ht). Qed.

(** without a goal, the cells with a time are the connected ones - whatever the heuristic and
    the order in which the narrow band gives them back *)
Theorem C81_star_reaches_the_connected_cells :
  forall (HO : HeapOps F64) (BL : BagLaws HO) dims g init flo fhi cfg fuel st log i,
  double_problem dims g init -> within_resolution dims g flo fhi -> quiet_sources g init -> heuristic_ready dims cfg ->
  fmm_outcome HO cfg noGoal init g fuel st log -> 0 <= i < box_size dims ->
  ((exists d t, time_is (fs_g st) i d /\ denotes d t) <-> reachable dims (fun k => In k init) (free g) i) /\
  (~ reachable dims (fun k => In k init) (free g) i -> time_is (fs_g st) i ninf).
Proof.
  intros HO BL dims g init flo fhi cfg fuel st log i HP HW Hq Hh H Hi. pose proof HP as [Hsh [Hc [[Hnd Hr] _]]].
  destruct (C76_exact_solution_exists dims g init flo fhi HP HW) as [X HE].
  destruct (fmm_GX dims g init flo fhi X _ HP HW HE HO BL cfg noGoal fuel st log Hq H) as [G N].
  destruct (C17_doubles_accept_exactly_the_connected_cells HO BL dims g init cfg fuel st log i Hsh Hc Hr Hh H) as [K _].
  pose proof (gx_ok dims init g (proj1 Hc) flo fhi X _ _ G) as Hg'. destruct (getCell_in dims _ i Hg' Hi) as [c Hci].
  assert (Hd : time_is (fs_g st) i (c_val c)) by (unfold time_is, getArrivalTime; rewrite Hci; reflexivity).
  assert (KK : forall d t, time_is (fs_g st) i d -> denotes d t -> reachable dims (fun k => In k init) (free g) i).
  { intros d t Ht Hdt. apply (finite_reach _ _ _ _ _ _ _ _ _ t G). exact (denotes64 _ _ _ _ Ht Hdt). }
  split; [split|].
  - intros [d [t [Ht Hdt]]]. exact (KK d t Ht Hdt).
  - intros Hre. apply K in Hre. destruct Hre as [c' [Hc' Hst]]. assert (c' = c) by congruence. subst c'.
    destruct (times64 (fs_g st) i) as [t|] eqn:E; [|exfalso; apply (N i c Hci); [congruence|exact E]].
    destruct (time64 _ _ _ E) as [d [A B]]. eauto.
  - intros Hn. destruct (ok64_time _ i _ (gx_t _ _ _ _ _ _ _ _ G) Hd) as [E|[t [E1 [_ E3]]]]; [rewrite <- E; exact Hd|]. exfalso. apply Hn. eapply KK; eauto.
Qed.
Print Assumptions C81_star_reaches_the_connected_cells.

(** with a goal: it gets a time exactly when it is connected *)
Theorem C81_star_goal_time :
  forall (HO : HeapOps F64) (BL : BagLaws HO) dims g init flo fhi X Xm cfg goal fuel st log,
  double_problem dims g init -> within_resolution dims g flo fhi -> exact_for dims g init X Xm -> quiet_sources g init -> heuristic_ready dims cfg ->
  fmm_outcome HO cfg goal init g fuel st log -> reachable dims (fun k => In k init) (free g) goal ->
  exists d t x, time_is (fs_g st) goal d /\ denotes d t /\ X goal = Some x /\ ((1 - err_below dims flo fhi Xm) * x <= t)%R.
Proof.
  intros HO BL dims g init flo fhi X Xm cfg goal fuel st log HP HW HE Hq Hh H Hre. pose proof HP as [Hsh [Hc [[Hnd Hr] _]]].
  destruct (fmm_GX dims g init flo fhi X _ HP HW HE HO BL cfg goal fuel st log Hq H) as [G N].
  destruct (run_doubles dims Hsh HO BL cfg init g goal Hh Hc Hr) as [k [st1 [log1 [A B]]]].
  destruct (outcome_det _ _ _ _ _ _ _ _ _ _ _ A H) as [-> ->].
  destruct B as [[B0|B0] [B1 [_ [B2 _]]]].
  - apply (B2 B0) in Hre. apply B1 in Hre. destruct Hre as [c [Hcg Hst]].
    destruct (times64 (fs_g st1) goal) as [t|] eqn:E; [|exfalso; apply (N goal c Hcg); [congruence|exact E]].
    destruct (time64 _ _ _ E) as [d [D1 D2]]. destruct (gx_n _ _ _ _ _ _ _ _ G goal t E) as [x [Hx Hl]].
    exists d, t, x. rewrite err_below_eq by apply HW. auto.
  - assert (Hin : In goal log1) by (destruct log1; [discriminate|injection B0 as ->; left; reflexivity]).
    apply B1 in Hin. destruct Hin as [c [Hcg Hst]].
    destruct (times64 (fs_g st1) goal) as [t|] eqn:E; [|exfalso; apply (N goal c Hcg); [congruence|exact E]].
    destruct (time64 _ _ _ E) as [d [D1 D2]]. destruct (gx_n _ _ _ _ _ _ _ _ G goal t E) as [x [Hx Hl]].
    exists d, t, x. rewrite err_below_eq by apply HW. auto.
Qed.

Theorem C81_ufmm_reaches_the_connected_cells :
  forall dims g init flo fhi fuel size inc s log i,
  double_problem dims g init -> within_resolution dims g flo fhi -> separated dims g init -> band_ok size inc ->
  ufmm_run fuel noGoal init g (uq_new size inc) = Ok (s, log) -> 0 <= i < box_size dims ->
  ((exists d t, time_is (uf_g s) i d /\ denotes d t) <-> reachable dims (fun k => In k init) (free g) i) /\
  (~ reachable dims (fun k => In k init) (free g) i -> time_is (uf_g s) i ninf).
Proof.
  intros dims g init flo fhi fuel size inc s log i HP HW Hs Hb H Hi. pose proof HP as [Hsh [Hc [Hpt _]]].
  destruct (C76_exact_solution_exists dims g init flo fhi HP HW) as [X HE].
  destruct (ufmm_GX dims g init flo fhi X _ HP HW HE noGoal fuel size inc s log Hs Hb H) as [G N].
  assert (Hun : ~ (0 <= noGoal < box_size dims)) by (destruct Hsh as [H2 Hlt]; pose proof (box_size_pos _ (dims2_proper' _ H2)); unfold noGoal; lia).
  pose proof (C65_without_goal_all_connected_cells_are_accepted F64 dims g init noGoal fuel size inc s log i Hsh Hc Hpt Hs Hb Hun H) as K.
  pose proof (gx_ok dims init g (proj1 Hc) flo fhi X _ _ G) as Hg'. destruct (getCell_in dims _ i Hg' Hi) as [c Hci].
  assert (Hd : time_is (uf_g s) i (c_val c)) by (unfold time_is, getArrivalTime; rewrite Hci; reflexivity).
  assert (KK : forall d t, time_is (uf_g s) i d -> denotes d t -> reachable dims (fun k => In k init) (free g) i).
  { intros d t Ht Hdt. apply (finite_reach _ _ _ _ _ _ _ _ _ t G). exact (denotes64 _ _ _ _ Ht Hdt). }
  split; [split|].
  - intros [d [t [Ht Hdt]]]. exact (KK d t Ht Hdt).
  - intros Hre. apply K in Hre. destruct Hre as [c' [Hc' Hst]]. assert (c' = c) by congruence. subst c'.
    destruct (times64 (uf_g s) i) as [t|] eqn:E; [|exfalso; apply (N i c Hci); [congruence|exact E]].
    destruct (time64 _ _ _ E) as [d [A B]]. eauto.
  - intros Hn. destruct (ok64_time _ i _ (gx_t _ _ _ _ _ _ _ _ G) Hd) as [E|[t [E1 [_ E3]]]]; [rewrite <- E; exact Hd|]. exfalso. apply Hn. eapply KK; eauto.
Qed.
Print Assumptions C81_ufmm_reaches_the_connected_cells.

(** ** the problem of Prop_Float with one initial point, and runs of each kind *)
Example C81_case :
  double_problem [3;3] c77_grid [0] /\ within_resolution [3;3] c77_grid (1/4) 1 /\ quiet_sources c77_grid [0] /\ separated [3;3] c77_grid [0] /\
  (exists st log, fmm_outcome (StdHeap (N := F64)) no_heur noGoal [0] c77_grid 100 st log /\ run64more [3;3] c77_grid [0] noGoal (fs_g st)) /\
  (exists dist st log, let cfg := mkCfg TIME dist [2;2] in heuristic_ready [3;3] cfg /\
     fmm_outcome (StdHeap (N := F64)) cfg 8 [0] c77_grid 100 st log /\ run64more [3;3] c77_grid [0] 8 (fs_g st)) /\
  (exists s log, ufmm_run 100 noGoal [0] c77_grid (uq_new 1000 (nofZ 2)) = Ok (s, log) /\ run64more [3;3] c77_grid [0] noGoal (uf_g s)) /\
  (exists s, gmm_run 100 (ndiv n1 (nofZ 4)) noGoal [0] c77_grid = Ok s /\ run64more [3;3] c77_grid [0] noGoal (gm_g s)).
Proof.
  destruct C77_case as [[Hsh [Hcl [_ Hv]]] [HW _]].
  assert (HP : double_problem [3;3] c77_grid [0]).
  { split; [exact Hsh|]. split; [exact Hcl|]. split; [|exact Hv]. split; [repeat constructor; intros []|]. intros i [<-|[]]. cbn. lia. }
  assert (HQ : quiet_sources c77_grid [0]) by (right; exists 0; reflexivity).
  assert (HS : separated [3;3] c77_grid [0]).
  { intros i j [<-|[]] [<-|[]] Ha. exfalso. exact (adjacent_irrefl _ _ Ha). }
  split; [exact HP|]. split; [exact HW|]. split; [exact HQ|]. split; [exact HS|]. split; [|split; [|split]].
  - destruct (fmm_run (StdHeap (N := F64)) 100 no_heur noGoal [0] c77_grid (hempty _)) as [[st log]|e] eqn:E.
    + exists st, log. split; [exact E|]. eapply (m64_fmm _ _ _ _ StdHeap StdBag); eauto.
    + exfalso. assert (K : match fmm_run (StdHeap (N := F64)) 100 no_heur noGoal [0] c77_grid (hempty _) with Ok _ => true | _ => false end = true) by (vm_compute; reflexivity).
      rewrite E in K. discriminate.
  - destruct (C24_lookups_succeed F64 [3;3] [2;2] TIME) as [d [Ed H]].
    { cbn; lia. } { repeat (constructor; [lia|]); constructor. } { cbn; lia. } { repeat (constructor; [lia|]); constructor. } { repeat (constructor; [lia|]); constructor. }
    exists d. cbn zeta.
    destruct (fmm_run (StdHeap (N := F64)) 100 (mkCfg TIME d [2;2]) 8 [0] c77_grid (hempty _)) as [[st log]|e] eqn:E.
    + exists st, log. split; [exact H|]. split; [exact E|]. eapply (m64_fmm _ _ _ _ StdHeap StdBag); eauto.
    + exfalso. assert (K : match precomputeDistances (N := F64) (mk_shape [3;3]) with Ok d =>
        match fmm_run (StdHeap (N := F64)) 100 (mkCfg TIME d [2;2]) 8 [0] c77_grid (hempty _) with Ok _ => true | _ => false end | _ => false end = true) by (vm_compute; reflexivity).
      rewrite Ed, E in K. discriminate.
  - destruct (ufmm_run 100 noGoal [0] c77_grid (uq_new 1000 (nofZ 2))) as [[s log]|e] eqn:E.
    + exists s, log. split; [reflexivity|]. eapply m64_ufmm; [exact HS|exact C65_default_band_doubles|exact E].
    + exfalso. assert (K : match ufmm_run 100 noGoal [0] c77_grid (uq_new 1000 (nofZ 2)) with Ok _ => true | _ => false end = true) by (vm_compute; reflexivity).
      rewrite E in K. discriminate.
  - destruct (gmm_run 100 (ndiv n1 (nofZ 4)) noGoal [0] c77_grid) as [s|e] eqn:E.
    + exists s. split; [reflexivity|]. eapply m64_gmm; [reflexivity|exact E].
    + exfalso. assert (K : match gmm_run 100 (ndiv n1 (nofZ 4)) noGoal [0] c77_grid with Ok _ => true | _ => false end = true) by (vm_compute; reflexivity).
      rewrite E in K. discriminate.
Qed.

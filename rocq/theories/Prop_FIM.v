(** Prop_FIM.v - property theorems C36 and C55: FIM. *)
From Coq Require Import Reals Lra.
From Verif Require Import Base BaseFacts Num NumXR NumF64 NumLaws Grid GridFacts GridUpd GridMore Eikonal
  FMMModel HeapRef HeapLaws SweepModel QueueModel UntidyModel Spec Obs EikR Solution XGrid FMMStruct FMMAbs FMMX Relax Exact Evolve Bound
  SweepX FIMX Prop_FMM Prop_Sweep Prop_Bound.
Open Scope Z_scope.

(** ** C36 *)

(** Whenever some initial point has a free neighbour and the run ends because the
    list is empty, the iterator has been moved before the first element: [true] is
    the model's record of that event, see fim_pass. *)
Theorem C36_emptying_the_list_decrements_begin :
  forall (N : Num) dims (g : grid N) init fuel E goal g' ub i j,
  shape_ok dims -> clean_grid dims g -> points_ok dims init -> separated dims g init ->
  In i init -> adjacent dims i j -> free g j ->
  fim_run fuel E goal init g = Ok (g', [], ub) -> ub = true.
Proof.
  intros N dims g init fuel E goal g' ub i j [H2 Hlt] [Hg Hc] [Hnd Hr] Hs Hi Ha Hf H.
  eapply (fim_run_ub dims (dims2_proper' _ H2) Hlt init g Hg Hs Hr); eauto. intros k c Hk. apply (Hc k c Hk).
Qed.
Print Assumptions C36_emptying_the_list_decrements_begin.

(** No cell is ever listed twice; the list is exactly the cells in state NARROW,
    whatever the moment the run stops at. *)
Theorem C36_no_cell_is_listed_twice :
  forall (N : Num) dims (g : grid N) init fuel E goal g' l ub,
  shape_ok dims -> clean_grid dims g -> points_ok dims init -> separated dims g init ->
  fim_run fuel E goal init g = Ok (g', l, ub) ->
  NoDup l /\ (forall x, In x l -> free g x) /\
  (forall x c, getCell g' x = Ok c -> (In x l <-> c_state c = NARROW)).
Proof.
  intros N dims g init fuel E goal g' l ub [H2 Hlt] [Hg Hc] [Hnd Hr] Hs H.
  apply (fim_run_lists dims (dims2_proper' _ H2) Hlt init g Hg Hs Hr) in H; [|intros k c Hk; apply (Hc k c Hk)].
  destruct H as [A B C D]. split; [exact B|]. split; [intros x Hx; apply (C x Hx)|].
  intros x c Hx. split.
  - intros Hin. destruct (C x Hin) as [_ [_ [c' [Hc' Hs']]]]. congruence.
  - intros Hn. destruct (D x c Hx Hn) as [K|[]]. exact K.
Qed.
Print Assumptions C36_no_cell_is_listed_twice.

(** at every pass, not only at the end *)
Theorem C36_every_pass_keeps_the_list :
  forall (N : Num) dims (g : grid N) E goal l stop ub g' l' stop' ub',
  shape_ok dims -> grid_ok dims g ->
  NoDup l -> (forall x, In x l -> free g x) -> (forall x c, getCell g x = Ok c -> (In x l <-> c_state c = NARROW)) ->
  fim_pass E goal g [] l stop ub = Ok (g', l', stop', ub') ->
  NoDup l' /\ (forall x, In x l' -> free g' x) /\ (forall x c, getCell g' x = Ok c -> (In x l' <-> c_state c = NARROW)).
Proof.
  intros N dims g E goal l stop ub g' l' stop' ub' [H2 Hlt] Hg Hnd Hfr Hl H.
  assert (HI : LI [] g g ([] ++ l) (fun _ => False)).
  { constructor; cbn [app]; [apply frame_refl|exact Hnd| |].
    - intros x Hx. split; [auto|]. split; [tauto|]. destruct (Hfr x Hx) as [c [Hc _]]. exists c. split; [exact Hc|]. apply (Hl x c Hc), Hx.
    - intros x c Hc Hs. left. apply (Hl x c Hc), Hs. }
  apply (fim_pass_LI dims (dims2_proper' _ H2) Hlt [] g Hg E goal l g [] stop ub g' l' stop' ub' HI) in H.
  destruct H as [A B C D]. split; [exact B|]. split; [intros x Hx; eapply frame_free; [exact A|apply (C x Hx)]|].
  intros x c Hx. split.
  - intros Hin. destruct (C x Hin) as [_ [_ [c' [Hc' Hs']]]]. congruence.
  - intros Hn. destruct (D x c Hx Hn) as [K|[]]. exact K.
Qed.

(** no time below the exact solution (instance of C53) *)
Theorem C36_no_time_below_the_solution :
  forall dims (g : grid XR) init X fuel E goal g' l ub i t,
  exact_problem dims g init -> exact_solution dims (fun i => In i init) (free g) (slow g) X ->
  fim_run fuel E goal init g = Ok (g', l, ub) -> times g' i = Some t -> exists x, X i = Some x /\ (x <= t)%R.
Proof.
  intros dims g init X fuel E goal g' l ub i t HP HX H. eapply C53_no_solver_is_below_the_exact_solution; eauto.
  eapply sr_fim; exact H.
Qed.
Print Assumptions C36_no_time_below_the_solution.

(** ** C55 *)
Theorem C55_fim_within_tolerance_of_the_solution :
  forall dims (g : grid XR) init X fuel e goal g' ub i,
  exact_problem dims g init -> separated dims g init -> (0 <= e)%R ->
  exact_solution dims (fun i => In i init) (free g) (slow g) X ->
  fim_run fuel (XFin e : XR) goal init g = Ok (g', [], ub) -> 0 <= i < box_size dims ->
  match X i, times g' i with
  | Some x, Some t => (x <= t <= x + (2 * Rmargin + e) * IZR (box_size dims))%R
  | None, None => True
  | _, _ => False
  end.
Proof.
  intros dims g init X fuel e goal g' ub i HP Hs He HX H Hi.
  pose proof HP as [[H2 Hlt] [[Hg Hc] [Hre [Hnd Hr]]]]. pose proof (dims2_proper' _ H2) as Hp.
  assert (Hf : forall k, free g k -> (0 < slow g k)%R) by (intros k Hk; apply slow_pos; assumption).
  assert (Hdec : forall i, {In i init} + {~ In i init}) by (intros; apply in_dec, Z.eq_dec).
  assert (Hv : forall k c, getCell g k = Ok c -> c_val c = XPInf) by (intros k c Hk; apply (Hc k c Hk)).
  assert (Ho : forall k c, getCell g k = Ok c -> c_state c = OPEN) by (intros k c Hk; apply (Hc k c Hk)).
  pose proof Rmargin_pos as HM.
  pose proof (fim_run_sub dims H2 Hlt init Hr g Hg Hre Hv Ho Hs e He X HX goal fuel g' ub H) as HS.
  destruct (exact_solution_delta dims init (free g) (slow g) Hf X 1 ltac:(lra) HX) as [SX [_ NX]].
  pose proof (rank_le (Z.to_nat (box_size dims)) X i) as Hrk. apply le_INR in Hrk.
  rewrite (INR_IZR_INZ (Z.to_nat (box_size dims))), Z2Nat.id in Hrk by lia.
  destruct (X i) as [x|] eqn:Ex.
  - destruct (comparison dims _ (free g) (slow g) Hp Hf Hdec (2 * Rmargin + e) X (times g') ltac:(lra) NX SX HS i x Hi Ex) as [t [Et Hle]].
    rewrite Et. split.
    + destruct (C36_no_time_below_the_solution dims g init X _ _ _ _ _ _ i t HP HX H Et) as [x' [Ex' Hx']]. congruence || (assert (x' = x) by congruence; subst; exact Hx').
    + eapply Rle_trans; [exact Hle|]. apply Rplus_le_compat_l. apply Rmult_le_compat_l; [lra|exact Hrk].
  - destruct (times g' i) as [t|] eqn:Et; [|exact I].
    destruct (C36_no_time_below_the_solution dims g init X _ _ _ _ _ _ i t HP HX H Et) as [x' [Ex' Hx']]. congruence.
Qed.
Print Assumptions C55_fim_within_tolerance_of_the_solution.

(** ** a case in exact arithmetic: a 2x2 grid, the upper row an obstacle *)
Definition tc (t : XR) (occ : XR) (s : fmstate) (i : Z) : cell XR := mkCell t occ s 0 (XFin 0 : XR) i.
Definition tg (t0 : XR) (s0 : fmstate) (t1 : XR) (s1 : fmstate) : grid XR :=
  mkGrid (mk_shape [2;2]) (XFin 1 : XR)
    [tc t0 (XFin 1) s0 0; tc t1 (XFin 1) s1 1; tc XPInf (XFin 0) OPEN 2; tc XPInf (XFin 0) OPEN 3] true [].

Lemma tg_free (t : XR) s i : isOccupied (tc t (XFin 1 : XR) s i) = false.
Proof. exact (nl_1_free XR XR_laws). Qed.
Lemma tg_occ (t : XR) s i : isOccupied (tc t (XFin 0 : XR) s i) = true.
Proof. exact (nl_0_occ XR XR_laws). Qed.

Lemma tg_cell t0 s0 t1 s1 i c : getCell (tg t0 s0 t1 s1) i = Ok c ->
  (i = 0 /\ c = tc t0 (XFin 1 : XR) s0 0) \/ (i = 1 /\ c = tc t1 (XFin 1 : XR) s1 1) \/
  (i = 2 /\ c = tc (XPInf : XR) (XFin 0 : XR) OPEN 2) \/ (i = 3 /\ c = tc (XPInf : XR) (XFin 0 : XR) OPEN 3).
Proof.
  intros H. pose proof (getCell_range _ _ _ H) as Hr. cbn in Hr.
  assert (i = 0 \/ i = 1 \/ i = 2 \/ i = 3) as [->|[->|[->| ->]]] by lia; cbn in H; injection H as <-; auto 6.
Qed.

Lemma tg_problem : exact_problem [2;2] (tg (XPInf : XR) OPEN (XPInf : XR) OPEN) [0] /\
  separated [2;2] (tg (XPInf : XR) OPEN (XPInf : XR) OPEN) [0].
Proof.
  assert (Hp : proper [2;2]) by (repeat constructor; lia).
  split.
  - split; [split; [repeat constructor; lia|cbn; lia]|]. split; [|split].
    + split; [split; reflexivity|]. intros i c Hc. apply tg_cell in Hc.
      destruct Hc as [[_ ->]|[[_ ->]|[[_ ->]|[_ ->]]]]; repeat split.
    + split; [exists 1%R; split; [reflexivity|lra]|]. intros i c Hc. apply tg_cell in Hc.
      destruct Hc as [[_ ->]|[[_ ->]|[[_ ->]|[_ ->]]]]; eexists; reflexivity.
    + split; [repeat constructor; cbn; lia|]. intros i [<-|[]]; cbn; lia.
  - intros i j [<-|[]] [<-|[]] Ha. exfalso. exact (adjacent_irrefl _ _ Ha).
Qed.

Lemma tg_solve s0 t1 s1 : t1 = XPInf \/ t1 = XFin (RF 1 Rmargin [0%R]) ->
  solveEikonal (tg (XFin 0 : XR) s0 t1 s1) 1 = Ok (XFin (RF 1 Rmargin [0%R]) : XR).
Proof.
  intros Ht. set (g := tg _ _ _ _).
  destruct (RF_bounds 1 Rmargin [0%R] ltac:(lra) Rmargin_pos ltac:(discriminate)) as [_ [_ [x [[<-|[]] Hx]]]].
  assert (Hok : times_ok g).
  { intros i c Hc. apply tg_cell in Hc. destruct Hc as [[_ ->]|[[_ ->]|[[_ ->]|[_ ->]]]]; cbn; auto.
    - right. exists 0%R. split; [reflexivity|lra].
    - destruct Ht as [->| ->]; [left; reflexivity|right; eexists; split; [reflexivity|lra]]. }
  rewrite (solveEikonal_X [2;2] g 1).
  - assert (Es : slow g 1 = 1%R) by (change (1 / 1 = 1)%R; field). rewrite Es. unfold eik.
    replace (upw (times g 1) (dmins [2;2] (times g) 1)) with [0%R]; [reflexivity|].
    replace (dmins [2;2] (times g) 1) with [Some 0%R; None] by reflexivity.
    destruct Ht as [->| ->]; [reflexivity|]. replace (times g 1) with (Some (RF 1 Rmargin [0%R])) by reflexivity. cbn [upw somes flat_map app].
    unfold below. cbn [filter]. destruct (Rlt_dec 0 (RF 1 Rmargin [0%R])); [reflexivity|contradiction].
  - repeat constructor; lia.
  - cbn; lia.
  - split; reflexivity.
  - exact Hok.
  - split; [exists 1%R; split; [reflexivity|lra]|]. intros i c Hc. apply tg_cell in Hc.
    destruct Hc as [[_ ->]|[[_ ->]|[[_ ->]|[_ ->]]]]; eexists; reflexivity.
  - eexists. split; [reflexivity|]. apply tg_free.
  - cbn; lia.
Qed.

Lemma tg_solve0 s0 t1 s1 : t1 = XFin (RF 1 Rmargin [0%R]) ->
  solveEikonal (tg (XFin 0 : XR) s0 t1 s1) 0 = Ok (XPInf : XR).
Proof.
  intros Ht. set (g := tg _ _ _ _).
  destruct (RF_bounds 1 Rmargin [0%R] ltac:(lra) Rmargin_pos ltac:(discriminate)) as [_ [_ [x [[<-|[]] Hx]]]].
  assert (Hok : times_ok g).
  { intros i c Hc. apply tg_cell in Hc. destruct Hc as [[_ ->]|[[_ ->]|[[_ ->]|[_ ->]]]]; cbn; auto.
    - right. exists 0%R. split; [reflexivity|lra].
    - subst. right; eexists; split; [reflexivity|lra]. }
  rewrite (solveEikonal_X [2;2] g 0).
  - unfold eik. subst t1.
    replace (dmins [2;2] (times g) 0) with [Some (RF 1 Rmargin [0%R]); None] by reflexivity.
    replace (times g 0) with (Some 0%R) by reflexivity. cbn [upw somes flat_map app].
    unfold below. cbn [filter]. destruct (Rlt_dec (RF 1 Rmargin [0%R]) 0); [lra|reflexivity].
  - repeat constructor; lia.
  - cbn; lia.
  - split; reflexivity.
  - exact Hok.
  - split; [exists 1%R; split; [reflexivity|lra]|]. intros i c Hc. apply tg_cell in Hc.
    destruct Hc as [[_ ->]|[[_ ->]|[[_ ->]|[_ ->]]]]; eexists; reflexivity.
  - eexists. split; [reflexivity|]. apply tg_free.
  - cbn; lia.
Qed.

(** the run: one pass to compute the cell, one to see that it converged *)
Example C36_case : exists g', fim_run 2 (XFin 0 : XR) noGoal [0] (tg (XPInf : XR) OPEN (XPInf : XR) OPEN) = Ok (g', [], true) /\
  free (tg (XPInf : XR) OPEN (XPInf : XR) OPEN) 1 /\ adjacent [2;2] 0 1 /\ times g' 1 <> None.
Proof.
  set (q := RF 1 Rmargin [0%R]).
  exists (tg (XFin 0 : XR) FROZEN (XFin q : XR) FROZEN). split; [|split; [|split]].
  - assert (Hinit : fim_init1 (mkFim (tg (XPInf : XR) OPEN (XPInf : XR) OPEN) []) 0 =
        Ok (mkFim (tg (XFin 0 : XR) FROZEN (XPInf : XR) NARROW) [1])).
    { unfold fim_init1. cbn [fi_g fi_l].
      change (setArrivalTime (tg (XPInf : XR) OPEN (XPInf : XR) OPEN) 0 n0) with (Ok (tg (XFin 0 : XR) OPEN (XPInf : XR) OPEN)). cbn [bind].
      change (setState (tg (XFin 0 : XR) OPEN (XPInf : XR) OPEN) 0 FROZEN) with (Ok (tg (XFin 0 : XR) FROZEN (XPInf : XR) OPEN)). cbn [bind].
      change (getNeighbors (g_sh (tg (XFin 0 : XR) FROZEN (XPInf : XR) OPEN)) 0) with (Ok [1; 2]). cbn [bind foldM fi_g fi_l].
      change (getCell (tg (XFin 0 : XR) FROZEN (XPInf : XR) OPEN) 1) with (Ok (tc (XPInf : XR) (XFin 1 : XR) OPEN 1)). cbn [bind].
      rewrite tg_free. cbn [c_state tc fmstate_eqb negb andb].
      change (setState (tg (XFin 0 : XR) FROZEN (XPInf : XR) OPEN) 1 NARROW) with (Ok (tg (XFin 0 : XR) FROZEN (XPInf : XR) NARROW)). cbn [bind fi_g fi_l].
      change (getCell (tg (XFin 0 : XR) FROZEN (XPInf : XR) NARROW) 2) with (Ok (tc (XPInf : XR) (XFin 0 : XR) OPEN 2)). cbn [bind].
      rewrite tg_occ. reflexivity. }
    unfold fim_run. cbn [foldM]. rewrite Hinit. cbn [bind fi_g fi_l fim_loop fim_pass].
    change (getArrivalTime (tg (XFin 0 : XR) FROZEN (XPInf : XR) NARROW) 1) with (Ok (XPInf : XR)). cbn [bind].
    rewrite tg_solve by (left; reflexivity). cbn [bind]. fold q.
    change (setArrivalTime (tg (XFin 0 : XR) FROZEN (XPInf : XR) NARROW) 1 (XFin q : XR)) with (Ok (tg (XFin 0 : XR) FROZEN (XFin q : XR) NARROW)). cbn [bind].
    change (nleb (nabs (nsub (XPInf : XR) (XFin q : XR))) (XFin 0 : XR)) with false. cbn [app bind fim_pass].
    change (getArrivalTime (tg (XFin 0 : XR) FROZEN (XFin q : XR) NARROW) 1) with (Ok (XFin q : XR)). cbn [bind].
    rewrite tg_solve by (right; reflexivity). cbn [bind]. fold q.
    change (setArrivalTime (tg (XFin 0 : XR) FROZEN (XFin q : XR) NARROW) 1 (XFin q : XR)) with (Ok (tg (XFin 0 : XR) FROZEN (XFin q : XR) NARROW)). cbn [bind].
    replace (nleb (nabs (nsub (XFin q : XR) (XFin q : XR))) (XFin 0 : XR)) with true.
    2:{ symmetry. change (Rleb (Rabs (q - q)) 0 = true). apply Rleb_true. rewrite Rminus_diag_eq, Rabs_R0 by reflexivity. lra. }
    change (getNeighbors (g_sh (tg (XFin 0 : XR) FROZEN (XFin q : XR) NARROW)) 1) with (Ok [0; 3]). cbn [bind foldM].
    unfold fim_neighbor.
    change (getCell (tg (XFin 0 : XR) FROZEN (XFin q : XR) NARROW) 0) with (Ok (tc (XFin 0 : XR) (XFin 1 : XR) FROZEN 0)). cbn [bind].
    rewrite tg_free. cbn [c_state tc fmstate_eqb negb andb]. rewrite tg_solve0 by reflexivity. cbn [bind].
    rewrite inf_not_better. cbn [bind].
    change (getCell (tg (XFin 0 : XR) FROZEN (XFin q : XR) NARROW) 3) with (Ok (tc (XPInf : XR) (XFin 0 : XR) OPEN 3)). cbn [bind].
    rewrite tg_occ. cbn [c_state tc fmstate_eqb negb andb bind].
    change (setState (tg (XFin 0 : XR) FROZEN (XFin q : XR) NARROW) 1 FROZEN) with (Ok (tg (XFin 0 : XR) FROZEN (XFin q : XR) FROZEN)).
    cbn [bind app orb]. reflexivity.
  - eexists. split; [reflexivity|apply tg_free].
  - apply (nbrs_spec [2;2] 0 1); [repeat constructor; lia|cbn; lia|cbn; auto].
  - discriminate.
Qed.

Example C55_case : exists X g', exact_solution [2;2] (fun i => In i [0]) (free (tg (XPInf : XR) OPEN (XPInf : XR) OPEN)) (slow (tg (XPInf : XR) OPEN (XPInf : XR) OPEN)) X /\
  exact_problem [2;2] (tg (XPInf : XR) OPEN (XPInf : XR) OPEN) [0] /\ separated [2;2] (tg (XPInf : XR) OPEN (XPInf : XR) OPEN) [0] /\
  fim_run 2 (XFin 0 : XR) noGoal [0] (tg (XPInf : XR) OPEN (XPInf : XR) OPEN) = Ok (g', [], true).
Proof.
  destruct tg_problem as [HP Hs]. destruct (C52_exact_solution_exists_and_is_unique _ _ _ HP) as [X [HX _]].
  destruct C36_case as [g' [Hr _]]. exists X, g'. auto.
Qed.

(** doubles: a 4x3 map; the run ends with an empty list and the iterator event *)
Example C36_case_doubles :
  match fim_run 40 (n0 : F64) noGoal [0] (new_grid [4;3] (n1 : F64)) with
  | Ok (_, [], ub) => ub | _ => false end = true.
Proof. vm_compute. reflexivity. Qed.

(** Prop_Frame.v - property theorems C20: no solver touches the map. *)
From Verif Require Import Base Num NumF64 NumLaws Grid Obs GridUpd Eikonal FMMModel HeapRef SweepModel
  QueueModel UntidyModel Frame.
Open Scope Z_scope.

(** The two grids have the same shape, leaf size, obstacle list, velocities and
    indices, and a cell that is occupied and not an initial point keeps its time. *)
Definition same_map {N : Num} (init : list Z) (g g' : grid N) : Prop :=
  g_sh g' = g_sh g /\ g_leaf g' = g_leaf g /\ g_obs g' = g_obs g /\
  length (g_cells g') = length (g_cells g) /\
  forall i c, getCell g i = Ok c ->
    exists c', getCell g' i = Ok c' /\ c_occ c' = c_occ c /\ c_idx c' = c_idx c /\
               (isOccupied c = true -> ~ In i init -> c_val c' = c_val c).

Lemma frame_same_map {N : Num} init (g g' : grid N) :
  frame (fun i => In i init) g g' -> same_map init g g'.
Proof. intros [A [B [C [_ [D E]]]]]. repeat (split; [assumption|]). exact E. Qed.

Section C20.
Context {N : Num}.

Theorem C20_fmm_keeps_map :
  forall (HO : HeapOps N) fuel cfg goal init g h0 st log,
  fmm_run HO fuel cfg goal init g h0 = Ok (st, log) -> same_map init g (fs_g st).
Proof. intros. eapply frame_same_map, fmm_run_frame; eauto. Qed.

Theorem C20_fsm_keeps_map :
  forall fuel maxSweeps goal init sweeps incs (g : grid N) s n i,
  fsm_run fuel maxSweeps goal init sweeps incs g = Ok (s, n, i) -> same_map init g (sw_g s).
Proof. intros ? ? ? init ? ? ? ? ? ? H. apply frame_same_map. exact (fsm_run_frame (fun i => In i init) _ _ _ _ _ _ _ _ (fun i Hi => Hi) H). Qed.

Theorem C20_lsm_keeps_map :
  forall fuel maxSweeps goal init sweeps incs (g : grid N) s n i,
  lsm_run fuel maxSweeps goal init sweeps incs g = Ok (s, n, i) -> same_map init g (sw_g s).
Proof. intros ? ? ? init ? ? ? ? ? ? H. apply frame_same_map. exact (lsm_run_frame (fun i => In i init) _ _ _ _ _ _ _ _ (fun i Hi => Hi) H). Qed.

Theorem C20_ddqm_keeps_map :
  forall fuel goal init th step (g : grid N) s,
  ddqm_run fuel goal init th step g = Ok s -> same_map init g (dq_g s).
Proof. intros. eapply frame_same_map, ddqm_run_frame; eauto. Qed.

Theorem C20_fim_keeps_map :
  forall fuel E goal init (g g' : grid N) l ub,
  fim_run fuel E goal init g = Ok (g', l, ub) -> same_map init g g'.
Proof. intros ? ? ? init ? ? ? ? H. apply frame_same_map. exact (fim_run_frame (fun i => In i init) _ _ _ _ _ _ (fun i Hi => Hi) H). Qed.

Theorem C20_gmm_keeps_map :
  forall fuel dt goal init (g : grid N) s,
  gmm_run fuel dt goal init g = Ok s -> same_map init g (gm_g s).
Proof. intros. eapply frame_same_map, gmm_run_frame; eauto. Qed.

Theorem C20_ufmm_keeps_map :
  forall fuel goal init (g : grid N) q s log,
  ufmm_run fuel goal init g q = Ok (s, log) -> same_map init g (uf_g s).
Proof. intros ? ? init ? ? ? ? H. apply frame_same_map. exact (ufmm_run_frame (fun i => In i init) _ _ _ _ _ _ (fun i Hi => Hi) H). Qed.

End C20.
Print Assumptions C20_fmm_keeps_map.
Print Assumptions C20_fsm_keeps_map.
Print Assumptions C20_lsm_keeps_map.
Print Assumptions C20_ddqm_keeps_map.
Print Assumptions C20_fim_keeps_map.
Print Assumptions C20_gmm_keeps_map.
Print Assumptions C20_ufmm_keeps_map.

(** a 3x3 binary64 map with an obstacle in the middle; every solver returns on it *)
Definition c20_grid : grid F64 :=
  match setVelocity (new_grid [3;3] (n1 : F64)) 4 n0 with Ok g => g | Fail _ => new_grid [3;3] n1 end.

Definition is_ok {A} (r : res A) : bool := match r with Ok _ => true | Fail _ => false end.

Example C20_case :
  is_ok (fmm_run (RefHeap (N := F64)) 20 no_heur noGoal [0] c20_grid []) &&
  is_ok (fsm_run 20 4294967295 noGoal [0] 0 (init_incs 2) c20_grid) &&
  is_ok (lsm_run 20 4294967295 noGoal [0] 0 (init_incs 2) c20_grid) &&
  is_ok (ddqm_run 60 noGoal [0] n0 (ddqm_env_step c20_grid) c20_grid) &&
  is_ok (fim_run 60 n0 noGoal [0] c20_grid) &&
  is_ok (gmm_run 60 (gmm_setup_dt (nofZ (-1)) c20_grid) noGoal [0] c20_grid) &&
  is_ok (ufmm_run 60 noGoal [0] c20_grid (uq_new 1000 (nofZ 2))) &&
  match getCell c20_grid 4 with Ok c => isOccupied c | _ => false end = true.
Proof. vm_compute. reflexivity. Qed.

(** Prop_Points.v - property theorems C110: the order in which initial points are given, and
    giving one twice, does not matter. *)
From Coq Require Import Reals Lra Permutation.
From Flocq Require Import Core IEEE754.BinarySingleNaN.
From Verif Require Import Base BaseFacts Num NumXR NumF64 NumLaws Grid GridFacts GridUpd GridMore Spec Obs Eikonal
  FMMModel HeapRef HeapLaws SweepModel QueueModel EikR Solution XGrid Exact Evolve Bound ExactMore Examples FloatOps FloatUpd FloatAbs FloatGrid
  Prop_FMM Prop_Sweep Prop_Bound Prop_Heap Prop_Float Prop_FloatAll Prop_Travel.
Open Scope Z_scope.

(** ** Specification *)
Definition same_points (l l' : list Z) : Prop := forall i, In i l <-> In i l'.

(** ** Loops whose steps may be exchanged and repeated *)
Section Loop.
Context {A S : Type} (f : S -> A -> res S) (P : S -> Prop) (D : A -> Prop).
Hypothesis stays : forall s a s', P s -> D a -> f s a = Ok s' -> P s'.
Hypothesis comm : forall s a b, P s -> D a -> D b -> bind (f s a) (fun s => f s b) = bind (f s b) (fun s => f s a).
Hypothesis idem : forall s a, P s -> D a -> bind (f s a) (fun s => f s a) = f s a.

Lemma loop_perm l l' : Permutation l l' -> Forall D l -> forall s, P s -> foldM f l s = foldM f l' s.
Proof.
  induction 1 as [|a l l' H IH|a b l|l l1 l2 H1 IH1 H2 IH2]; intros HD s Hs; [reflexivity| | |].
  - inversion HD as [|? ? Da Dl]; subst. cbn [foldM]. destruct (f s a) as [s'|e] eqn:E; [|reflexivity]. cbn [bind]. apply IH; [exact Dl|]. eapply stays; eauto.
  - inversion HD as [|? ? Db Dl]; subst. inversion Dl as [|? ? Da Dl']; subst. pose proof (comm s b a Hs Db Da) as C. cbn [foldM].
    destruct (f s b) as [s1|e1], (f s a) as [s2|e2]; cbn [bind] in *.
    + rewrite C. reflexivity.
    + rewrite C. reflexivity.
    + rewrite <- C. reflexivity.
    + congruence.
  - rewrite IH1, IH2; auto. eapply Permutation_Forall; eauto.
Qed.

Lemma loop_again l a : Forall D l -> In a l -> forall s, P s -> foldM f (a :: l) s = foldM f l s.
Proof.
  intros HD Hin. destruct (in_split _ _ Hin) as [l1 [l2 E]].
  assert (Hp : Permutation l (a :: l1 ++ l2)) by (rewrite E; symmetry; apply Permutation_middle).
  rewrite Forall_forall in HD. pose proof (HD a Hin) as Da.
  assert (D1 : Forall D (a :: a :: l1 ++ l2)).
  { constructor; [exact Da|]. eapply Permutation_Forall; [exact Hp|]. rewrite Forall_forall. exact HD. }
  intros s Hs. rewrite (loop_perm (a :: l) (a :: a :: l1 ++ l2)); [|apply perm_skip; exact Hp|constructor; [exact Da|rewrite Forall_forall; exact HD]|exact Hs].
  rewrite (loop_perm l (a :: l1 ++ l2)); [|exact Hp|rewrite Forall_forall; exact HD|exact Hs].
  cbn [foldM]. pose proof (idem s a Hs Da) as I. destruct (f s a) as [s1|e]; cbn [bind] in *; [|reflexivity]. rewrite I. reflexivity.
Qed.

Lemma loop_nodup (eqd : forall a b : A, {a = b} + {a <> b}) l : Forall D l -> forall s, P s -> foldM f (nodup eqd l) s = foldM f l s.
Proof.
  induction l as [|a l IH]; intros HD s Hs; [reflexivity|]. inversion HD as [|? ? Da Dl]; subst. cbn [nodup]. destruct (in_dec eqd a l) as [Hin|Hn].
  - rewrite IH by assumption. symmetry. apply loop_again; assumption.
  - cbn [foldM]. destruct (f s a) as [s1|e] eqn:E; [|reflexivity]. cbn [bind]. apply IH; [exact Dl|]. eapply stays; eauto.
Qed.

Lemma loop_same (eqd : forall a b : A, {a = b} + {a <> b}) l l' : (forall a, In a l <-> In a l') -> Forall D l ->
  forall s, P s -> foldM f l s = foldM f l' s.
Proof.
  intros H HD s Hs. assert (HD' : Forall D l') by (rewrite Forall_forall in *; intros a Ha; apply HD, H, Ha).
  rewrite <- (loop_nodup eqd l HD s Hs), <- (loop_nodup eqd l' HD' s Hs). apply loop_perm; [|apply Forall_forall; intros a Ha; apply nodup_In in Ha; rewrite Forall_forall in HD; auto|exact Hs].
  apply NoDup_Permutation; [apply NoDup_nodup|apply NoDup_nodup|]. intros a. rewrite !nodup_In. apply H.
Qed.
End Loop.

(** ** Writes to cells *)
Section Writes.
Context {N : Num}.
Notation grid := (grid N). Notation cell := (cell N).

Lemma upd_eq (g : grid) i (u : cell -> cell) : updCell g i u =
  match getCell g i with Ok c => Ok (with_cells g (lset (g_cells g) (Z.to_nat i) (u c))) | Fail _ => Fail UB end.
Proof. unfold updCell. destruct (getCell g i) as [c|e] eqn:E; [reflexivity|]. cbn [bind]. f_equal. eapply getCell_fail; exact E. Qed.

Lemma upd_then (g : grid) i u j v : bind (updCell g i u) (fun g => updCell g j v) =
  match getCell g i with
  | Fail _ => Fail UB
  | Ok c => match (if i =? j then Ok (u c) else getCell g j) with
            | Fail _ => Fail UB
            | Ok d => Ok (with_cells g (lset (lset (g_cells g) (Z.to_nat i) (u c)) (Z.to_nat j) (v d)))
            end
  end.
Proof.
  destruct (updCell g i u) as [g1|e] eqn:E.
  - cbn [bind]. rewrite upd_eq. rewrite (updCell_get _ _ _ _ j E). apply updCell_ok in E. destruct E as [c [Hc ->]]. rewrite Hc.
    destruct (Z.eqb_spec i j) as [<-|Hne]; [rewrite Hc; reflexivity|]. destruct (getCell g j); reflexivity.
  - rewrite upd_eq in E. destruct (getCell g i); [discriminate|]. cbn [bind]. congruence.
Qed.

Lemma upd_comm (g : grid) i u j v : (forall c, u (v c) = v (u c)) ->
  bind (updCell g i u) (fun g => updCell g j v) = bind (updCell g j v) (fun g => updCell g i u).
Proof.
  intros H. rewrite !upd_then. destruct (getCell g i) as [c|e] eqn:Ei, (getCell g j) as [d|e'] eqn:Ej; try rewrite (Z.eqb_sym j i); destruct (Z.eqb_spec i j) as [<-|Hne]; rewrite ?Ei; try reflexivity.
  - rewrite Ei in Ej. injection Ej as <-. rewrite !lset_lset, H. reflexivity.
  - f_equal. f_equal. apply lset_comm. unfold getCell in Ei, Ej. apply vget_ok in Ei, Ej. lia.
  - congruence.
  - congruence.
Qed.

Lemma upd_idem (g : grid) i u : (forall c, u (u c) = u c) -> bind (updCell g i u) (fun g => updCell g i u) = updCell g i u.
Proof.
  intros H. rewrite upd_then, upd_eq, Z.eqb_refl. destruct (getCell g i) as [c|e]; [|reflexivity]. rewrite lset_lset, H. reflexivity.
Qed.

(** ** C110: FSM and LSM *)
Theorem C110_fsm_points_are_a_set :
  forall fuel maxSweeps goal init init' sweeps incs (g : grid),
  same_points init init' ->
  fsm_run fuel maxSweeps goal init sweeps incs g = fsm_run fuel maxSweeps goal init' sweeps incs g.
Proof.
  intros fuel ms goal init init' sw incs g H. unfold fsm_run.
  rewrite (loop_same (fun g i => setArrivalTime g i n0) (fun _ => True) (fun _ => True)) with (l' := init'); [reflexivity| | | |apply Z.eq_dec|exact H| |exact Logic.I].
  - auto.
  - intros s a b _ _ _. unfold setArrivalTime. apply (upd_comm s a (fun c => with_val c n0) b (fun c => with_val c n0)). reflexivity.
  - intros s a _ _. unfold setArrivalTime. apply (upd_idem s a (fun c => with_val c n0)). reflexivity.
  - apply Forall_forall. auto.
Qed.

(** LSM: the writes of one initial point *)
Definition op (g : grid) (x : Z * bool) : res grid := if snd x then setArrivalTime g (fst x) n0 else setState g (fst x) OPEN.
Definition ops dims (i : Z) : list (Z * bool) := (i, true) :: map (fun j => (j, false)) (nbrs dims i).

Lemma op_comm (g : grid) x y : bind (op g x) (fun g => op g y) = bind (op g y) (fun g => op g x).
Proof.
  destruct x as [i [|]], y as [j [|]]; unfold op; cbn [fst snd]; unfold setArrivalTime, setState.
  - apply (upd_comm g i (fun c => with_val c n0) j (fun c => with_val c n0)). reflexivity.
  - apply (upd_comm g i (fun c => with_val c n0) j (fun c => with_state c OPEN)). reflexivity.
  - apply (upd_comm g i (fun c => with_state c OPEN) j (fun c => with_val c n0)). reflexivity.
  - apply (upd_comm g i (fun c => with_state c OPEN) j (fun c => with_state c OPEN)). reflexivity.
Qed.
Lemma op_idem (g : grid) x : bind (op g x) (fun g => op g x) = op g x.
Proof.
  destruct x as [i [|]]; unfold op; cbn [fst snd]; unfold setArrivalTime, setState.
  - apply (upd_idem g i (fun c => with_val c n0)). reflexivity.
  - apply (upd_idem g i (fun c => with_state c OPEN)). reflexivity.
Qed.

Lemma op_dec (x y : Z * bool) : {x = y} + {x <> y}.
Proof. decide equality; [apply Bool.bool_dec|apply Z.eq_dec]. Qed.
Lemma all_true {A} (l : list A) : Forall (fun _ => True) l.
Proof. apply Forall_forall. auto. Qed.

Lemma ops_same l l' (g : grid) : (forall x, In x l <-> In x l') -> foldM op l g = foldM op l' g.
Proof.
  intros H. apply (loop_same op (fun _ => True) (fun _ => True)); auto using op_dec, all_true; intros; [apply op_comm|apply op_idem].
Qed.

Lemma foldM_map {A B S} (f : S -> B -> res S) (h : A -> B) l (s : S) : foldM f (map h l) s = foldM (fun s a => f s (h a)) l s.
Proof. revert s. induction l as [|a l IH]; intros s; [reflexivity|]. cbn [map foldM]. destruct (f s (h a)); cbn [bind]; auto. Qed.

Lemma lsm_init1_ops dims (g : grid) i : proper dims -> 2 * box_size dims <= 4294967296 -> grid_ok dims g -> 0 <= i < box_size dims ->
  lsm_init1 g i = foldM op (ops dims i) g.
Proof.
  intros Hp Hlt Hg Hi. unfold lsm_init1, ops. cbn [foldM]. unfold op at 1. cbn [fst snd]. destruct (setArrivalTime g i n0) as [g1|e] eqn:E; [|reflexivity]. cbn [bind].
  assert (Hsh : g_sh g1 = mk_shape dims) by (destruct (updCell_fields _ _ _ _ E) as [-> _]; apply Hg).
  rewrite Hsh, getNeighbors_eq by assumption. cbn [bind]. rewrite foldM_map. apply foldM_ext. reflexivity.
Qed.

Lemma ops_grid_ok dims l (g g' : grid) : grid_ok dims g -> foldM op l g = Ok g' -> grid_ok dims g'.
Proof.
  intros Hg H. revert H. apply foldM_inv_partial with (P := grid_ok dims); [exact Hg|]. intros s [i b] s1 _ Hs H1. unfold op in H1. cbn [fst snd] in H1.
  destruct b; eapply updCell_grid_ok; eauto.
Qed.

Lemma freeze_grid_ok dims (g g' : grid) : grid_ok dims g -> freeze_all g = Ok g' -> grid_ok dims g'.
Proof.
  intros Hg H. unfold freeze_all in H. revert H. apply foldM_inv_partial with (P := grid_ok dims); [exact Hg|]. intros s x s1 _ Hs H1. eapply updCell_grid_ok; eauto.
Qed.

Theorem C110_lsm_points_are_a_set :
  forall dims fuel maxSweeps goal init init' sweeps incs (g : grid),
  proper dims -> 2 * box_size dims <= 4294967296 -> grid_ok dims g -> (forall i, In i init -> 0 <= i < box_size dims) ->
  same_points init init' ->
  lsm_run fuel maxSweeps goal init sweeps incs g = lsm_run fuel maxSweeps goal init' sweeps incs g.
Proof.
  intros dims fuel ms goal init init' sw incs g Hp Hlt Hg Hr H. unfold lsm_run. destruct (freeze_all g) as [g0|e] eqn:E; [|reflexivity]. cbn [bind].
  pose proof (freeze_grid_ok _ _ _ Hg E) as Hg0.
  rewrite (loop_same lsm_init1 (grid_ok dims) (fun i => 0 <= i < box_size dims)) with (l' := init'); [reflexivity| | | |apply Z.eq_dec|exact H|apply Forall_forall; exact Hr|exact Hg0].
  - intros s a s' Hs Ha H1. rewrite (lsm_init1_ops dims) in H1 by assumption. eapply ops_grid_ok; eauto.
  - assert (K : forall s a b, grid_ok dims s -> 0 <= a < box_size dims -> 0 <= b < box_size dims ->
      bind (lsm_init1 s a) (fun s => lsm_init1 s b) = foldM op (ops dims a ++ ops dims b) s).
    { intros s a b Hs Ha Hb. rewrite (lsm_init1_ops dims), foldM_app by assumption. destruct (foldM op (ops dims a) s) as [s1|] eqn:E1; [|reflexivity]. cbn [bind].
      apply lsm_init1_ops; auto. eapply ops_grid_ok; eauto. }
    intros s a b Hs Ha Hb. rewrite !K by assumption. apply ops_same. intros x. rewrite !in_app_iff. tauto.
  - assert (K : forall s a b, grid_ok dims s -> 0 <= a < box_size dims -> 0 <= b < box_size dims ->
      bind (lsm_init1 s a) (fun s => lsm_init1 s b) = foldM op (ops dims a ++ ops dims b) s).
    { intros s a b Hs Ha Hb. rewrite (lsm_init1_ops dims), foldM_app by assumption. destruct (foldM op (ops dims a) s) as [s1|] eqn:E1; [|reflexivity]. cbn [bind].
      apply lsm_init1_ops; auto. eapply ops_grid_ok; eauto. }
    intros s a Hs Ha. rewrite K, (lsm_init1_ops dims) by assumption. apply ops_same. intros x. rewrite in_app_iff. tauto.
Qed.
End Writes.
Print Assumptions C110_fsm_points_are_a_set.
Print Assumptions C110_lsm_points_are_a_set.

(** ** C110: every solver, up to the accuracy *)
Lemma exact_points dims l l' fr f X : same_points l l' -> exact_solution dims (fun i => In i l) fr f X -> exact_solution dims (fun i => In i l') fr f X.
Proof.
  intros H [E1 E2 E3 E4 E5]. constructor; auto.
  - intros i Hi. apply E1, H, Hi.
  - intros i t ms Ht Hn Hms. apply (E2 i t ms); auto. intros Hi. apply Hn, H, Hi.
  - intros i j Hi Hf Hs Hn Hj. apply (E3 i j); auto. intros K. apply Hs, H, K.
Qed.

Theorem C110_order_of_the_points :
  forall dims (g : grid XR) init init' T T' i,
  exact_problem dims g init -> exact_problem dims g init' -> same_points init init' ->
  result_of dims g init T -> result_of dims g init' T' -> 0 <= i < box_size dims ->
  match T i, T' i with
  | Some t, Some t' => (Rabs (t - t') <= xerr dims)%R
  | None, None => True
  | _, _ => False
  end.
Proof.
  intros dims g init init' T T' i HP HP' Hs HT HT' Hi.
  destruct (C52_exact_solution_exists_and_is_unique _ _ _ HP) as [X [HX _]].
  pose proof (close_result dims g init T X i HP HT HX Hi) as C.
  pose proof (close_result dims g init' T' X i HP' HT' (exact_points _ _ _ _ _ _ Hs HX) Hi) as C'.
  destruct (X i) as [x|], (T i) as [t|], (T' i) as [t'|]; try contradiction; auto. apply Rabs_le. lra.
Qed.
Print Assumptions C110_order_of_the_points.

Theorem C110_order_of_the_points_doubles :
  forall dims g init init' eb ea eb' ea' goal h h' i t,
  precise dims g init eb ea -> precise dims g init' eb' ea' -> same_points init init' ->
  any64 dims g init goal h -> arrives h i t -> complete64 dims g init' h' ->
  exists t', arrives h' i t' /\ ((1 - eb) * t' <= (1 + ea') * t)%R.
Proof.
  intros dims g init init' eb ea eb' ea' goal h h' i t HP HP' Hs Hrun Ha Hrun'.
  destruct (precise_facts _ _ _ _ _ HP) as [_ [Hp [_ [Hf [_ [X [HX [HA _]]]]]]]].
  destruct (precise_facts _ _ _ _ _ HP') as [Hea [_ [_ [_ [_ [X' [HX' [_ HB']]]]]]]].
  destruct (run_cell _ _ _ _ _ X goal h _ t HP HX HA Hrun Ha) as [x [Hx [Hx0 [Hi [Ht0 Hle]]]]].
  pose proof (exact_unique dims init' (free g) (slow64 g) Hp (fun k Hk => proj1 (Hf k Hk)) X' X HX' (exact_points _ _ _ _ _ _ Hs HX) i) as E.
  specialize (HB' h' _ Hrun' Hi). rewrite E, Hx in HB'.
  destruct HB' as [t' [B1 [_ [B2 [_ B4]]]]]. exists t'. split; [exact B1|].
  eapply chain; [exact Hea|exact Hx0|apply Rle_refl|exact Ht0|exact B2|exact Hle|exact B4].
Qed.
Print Assumptions C110_order_of_the_points_doubles.

(** ** Cases *)
Example C110_case :
  same_points [0;8;0;8;8] [8;0] /\ (forall i, In i [0;8;0;8;8] -> 0 <= i < box_size [3;3]) /\
  grid_ok [3;3] (dmap d_map) /\ proper [3;3] /\
  (exists s n incs, fsm_run 90 90 noGoal [0;8;0;8;8] 0 (init_incs 2) (dmap d_map) = Ok (s, n, incs) /\ n < 90) /\
  (exists s n incs, lsm_run 90 90 noGoal [0;8;0;8;8] 0 (init_incs 2) (dmap d_map) = Ok (s, n, incs) /\ n < 90) /\
  exact_problem [3;3] ex_grid [0;8] /\ exact_problem [3;3] ex_grid [8;0] /\ same_points [0;8] [8;0] /\
  exists T T', result_of [3;3] ex_grid [0;8] T /\ result_of [3;3] ex_grid [8;0] T'.
Proof.
  assert (S1 : speeds d_map) by solve_speeds.
  split; [intros i; cbn; intuition|]. split; [cbn; intuition lia|]. split; [|split; [repeat constructor; lia|split; [|split]]].
  - pose proof (dmap_precise d_map [0] S1 corner) as [flo [fhi [X [Xm [[_ [[Hg _] _]] _]]]]]. exact Hg.
  - assert (H : match fsm_run 90 90 noGoal [0;8;0;8;8] 0 (init_incs 2) (dmap d_map) with Ok (s, n, _) => n <? 90 | _ => false end = true) by (vm_compute; reflexivity).
    destruct (fsm_run 90 90 noGoal [0;8;0;8;8] 0 (init_incs 2) (dmap d_map)) as [[[s n] incs]|]; [|discriminate]. apply Z.ltb_lt in H. eauto 6.
  - assert (H : match lsm_run 90 90 noGoal [0;8;0;8;8] 0 (init_incs 2) (dmap d_map) with Ok (s, n, _) => n <? 90 | _ => false end = true) by (vm_compute; reflexivity).
    destruct (lsm_run 90 90 noGoal [0;8;0;8;8] 0 (init_incs 2) (dmap d_map)) as [[[s n] incs]|]; [|discriminate]. apply Z.ltb_lt in H. eauto 6.
  - destruct C34_case as [HP [Hs [T [_ [HT _]]]]].
    assert (HP' : exact_problem [3;3] ex_grid [8;0]).
    { destruct HP as [A [B [C _]]]. split; [exact A|]. split; [exact B|]. split; [exact C|].
      split; [repeat constructor; cbn; intuition lia|]. intros i [<-|[<-|[]]]; cbn; lia. }
    split; [exact HP|]. split; [exact HP'|]. split; [intros i; cbn; intuition|].
    destruct (C34_all_solvers_have_a_result _ _ _ HP') as [_ [[m1 [s1 [n1 [i1 [f1 [H1 L1]]]]]] _]].
    exists T, (times (sw_g s1)). split; [exact HT|]. eapply res_fsm; eauto.
Qed.

Example C110_case_doubles :
  precise [3;3] (dmap d_map) [0;8] (err_below [3;3] (1/4) 1 9) (err_above [3;3] (1/4) 1 9) /\
  precise [3;3] (dmap d_map) [8;0] (err_below [3;3] (1/4) 1 9) (err_above [3;3] (1/4) 1 9) /\
  (err_below ([3;3])%Z (1/4) 1 9 <= / 10 ^ 9)%R /\ (err_above ([3;3])%Z (1/4) 1 9 <= / 10 ^ 8)%R /\
  same_points [0;8] [8;0] /\ (exists h, any64 [3;3] (dmap d_map) [0;8] noGoal h) /\ exists h', complete64 [3;3] (dmap d_map) [8;0] h'.
Proof.
  assert (S1 : speeds d_map) by solve_speeds.
  assert (P1 : points_ok [3;3] [0;8]) by (split; [repeat constructor; cbn; intuition lia|intros i [<-|[<-|[]]]; cbn; lia]).
  assert (P2 : points_ok [3;3] [8;0]) by (split; [repeat constructor; cbn; intuition lia|intros i [<-|[<-|[]]]; cbn; lia]).
  assert (Q : forall l, incl l [0;8] -> separated [3;3] (dmap d_map) l).
  { intros l Hl i j Hi Hj Hij. exfalso. assert (Hp : proper [3;3]) by (repeat constructor; lia). apply Hl in Hi, Hj.
    assert (Hir : 0 <= i < box_size [3;3]) by (cbn; destruct Hi as [<-|[<-|[]]]; lia).
    apply (nbrs_spec [3;3] i j Hp Hir) in Hij. destruct Hi as [<-|[<-|[]]]; vm_compute in Hij; destruct Hj as [<-|[<-|[]]]; intuition discriminate. }
  split; [apply dmap_precise; assumption|]. split; [apply dmap_precise; assumption|]. split; [apply C77_case|]. split; [apply C77_case|].
  split; [intros i; cbn; intuition|]. split.
  - destruct (dmap_run d_map [0;8] S1 P1 (Q _ (incl_refl _))) as [h [_ H]]. eauto.
  - destruct (dmap_run d_map [8;0] S1 P2) as [h [H _]]; [apply Q; intros x Hx; cbn in *; intuition|]. eauto.
Qed.

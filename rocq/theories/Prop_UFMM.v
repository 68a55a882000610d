(** Prop_UFMM.v - property theorems C65, C66 (the Untidy Fast Marching Method) and the
    ordering part of C28 (the untidy queue with exact arithmetic). *)
From Coq Require Import Reals Lra Permutation.
From Verif Require Import Base BaseFacts Num NumXR NumF64 NumLaws Grid GridFacts GridUpd GridMore Eikonal
  FMMModel HeapRef HeapLaws UntidyModel UntidySpec SweepModel QueueModel SolverModel Spec Obs EikR Solution XGrid FMMStruct FMMAbs FMMX Relax Exact Evolve Bound
  Untidy Lifecycle UFMMStruct UntidyX UFMMX Examples Prop_FMM Prop_Bound Prop_Untidy Prop_Heap.
Open Scope Z_scope.

(** ** C28: the order in which the queue gives elements back *)
Section Timed.
Variables (size : Z) (inc : R).
Hypothesis Hsize : 0 < size.
Hypothesis Hsize2 : 2 * size <= 4294967296.
Hypothesis Hinc : (0 < inc)%R.

Lemma new_delta : uq_delta (uq_new size (XFin inc : XR)) = XFin (inc / IZR size).
Proof. cbn. unfold Reqb. destruct (Req_EM_T (IZR size) 0) as [K|K]; [|reflexivity]. pose proof (IZR_lt _ _ Hsize). lra. Qed.

Lemma thist_uhist q h S T : thist size inc q h S T -> uhist q h S.
Proof.
  induction 1.
  - constructor. lia.
  - eapply uh_push; [exact IHthist|intros []|eassumption].
  - eapply uh_push; eassumption.
  - eapply uh_incr; eassumption.
  - eapply uh_top; eassumption.
  - eapply uh_pop; eassumption.
  - eapply uh_clear; eassumption.
Qed.

Definition st_ (T : Z -> R) : Z -> option R := fun x => Some (T x).
Lemma QI_set (T : Z -> R) e t q t0 : QI size inc (setT (st_ T) e t) q t0 -> QI size inc (st_ (fun x => if x =? e then t else T x)) q t0.
Proof.
  apply QI_ext. intros x _. unfold setT, st_. destruct (Z.eqb_spec x e), (Z.eq_dec x e); congruence.
Qed.

Definition fixed (q : uq (N := XR)) := uq_inc q = XFin inc /\ uq_delta q = XFin (inc / IZR size) /\ uq_size q = size.
Lemma QI_fixed T q t0 : QI size inc T q t0 -> fixed q.
Proof. intros [A B C D E _]. repeat split; assumption. Qed.

Lemma thist_QI q h S T : thist size inc q h S T -> fixed q /\ (S <> [] -> exists t0, QI size inc (st_ T) q t0).
Proof.
  induction 1 as [h T|q h T e t q' b H IH Hp|q h S T e t t0 q' b H IH Hne Hni E0 Ht Hp|q h S T e t t0 q' b H IH Hin E0 Ht Hp
    |q h S T q' x H IH Ht|q h S T q1 x q' H IH Hne Ht Hp|q h S T H IH].
  - split; [|congruence]. split; [reflexivity|]. split; [exact new_delta|reflexivity].
  - destruct IH as [[F1 [F2 F3]] _]. pose proof (uhist_spec _ _ _ (thist_uhist _ _ _ _ H)) as [U [_ [_ [P _]]]].
    assert (Eb : bag q = []) by (symmetry in P; apply Permutation_nil in P; exact P).
    destruct (push_first_X size inc Hsize Hinc (st_ T) q e t U Eb F1 F2 F3) as [q2 [b2 [Hp2 I]]].
    rewrite Hp in Hp2. injection Hp2 as <- <-. apply QI_set in I. split; [eapply QI_fixed; exact I|]. intros _. eauto.
  - destruct IH as [_ IH]. destruct (IH Hne) as [t1 I]. assert (t1 = t0) by (pose proof (qi_t0 _ _ _ _ _ I) as K; rewrite E0 in K; congruence). subst t1.
    pose proof (uhist_spec _ _ _ (thist_uhist _ _ _ _ H)) as [U [_ [_ [P _]]]].
    assert (Hb : bag q <> []) by (intros K; rewrite K in P; apply Permutation_nil in P; contradiction).
    assert (Hb2 : ~ In e (bag q)) by (intros K; apply Hni; eapply Permutation_in; [exact P|exact K]).
    destruct (push_X size inc Hsize Hsize2 Hinc (st_ T) q t0 e t I Hb Hb2 Ht) as [q2 [b2 [Hp2 I2]]].
    rewrite Hp in Hp2. injection Hp2 as <- <-. apply QI_set in I2. split; [eapply QI_fixed; exact I2|]. intros _. eauto.
  - destruct IH as [_ IH]. assert (Hne : S <> []) by (intros ->; destruct Hin). destruct (IH Hne) as [t1 I].
    assert (t1 = t0) by (pose proof (qi_t0 _ _ _ _ _ I) as K; rewrite E0 in K; congruence). subst t1.
    pose proof (uhist_spec _ _ _ (thist_uhist _ _ _ _ H)) as [U [_ [Hnd [P Hb]]]]. destruct (Hb e Hin) as [Hb1 Hb2].
    rewrite (qi_size _ _ _ _ _ I) in Hb1.
    assert (Hnd' : NoDup (bag q)) by (eapply Permutation_NoDup; [symmetry; exact P|exact Hnd]).
    destruct (incr_X size inc Hsize Hsize2 Hinc (st_ T) q t0 e (h e) t I Hnd' Hb1 Hb2 Ht) as [q2 [b2 [Hp2 I2]]].
    rewrite Hp in Hp2. injection Hp2 as <- <-. apply QI_set in I2. split; [eapply QI_fixed; exact I2|]. intros _. eauto.
  - destruct IH as [[F1 [F2 F3]] IH]. destruct S as [|y S].
    + exfalso. pose proof (uhist_spec _ _ _ (thist_uhist _ _ _ _ H)) as [U [_ [_ [P _]]]].
      destruct (top_spec _ _ _ U Ht) as [U' [Et [Es [En [r Er]]]]].
      assert (Eb : bag q' = []) by (unfold bag in *; rewrite Et; symmetry in P; apply Permutation_nil in P; exact P).
      assert (K : In x (bag q')).
      { eapply (bag_bucket q' x (uq_i0 q') U'); [apply (ui_i0 _ U')|]. rewrite Er. apply in_or_app. right. left. reflexivity. }
      rewrite Eb in K. destruct K.
    + destruct (IH ltac:(discriminate)) as [t0 I]. destruct (top_X size inc Hsize Hinc _ _ _ _ _ I Ht) as [t1 [r [_ [I1 _]]]].
      split; [eapply QI_fixed; exact I1|]. intros _. eauto.
  - destruct IH as [_ IH]. destruct (IH Hne) as [t0 I].
    pose proof (uhist_spec _ _ _ (thist_uhist _ _ _ _ H)) as [U [_ [_ [P _]]]].
    assert (Hb : bag q <> []) by (intros K; rewrite K in P; apply Permutation_nil in P; contradiction).
    destruct (pop_X size inc Hsize Hinc _ _ _ _ I Hb Hp) as [t1 [_ I1]]. split; [eapply QI_fixed; exact I1|]. eauto.
  - destruct IH as [F _]. split; [exact F|congruence].
Qed.
End Timed.

(** with exact arithmetic and times given inside the window, every element given back
    by top (and removed by the next pop) is less than one bucket width (increment / number
    of buckets) above the least stored time; a push or increase inside the window always
    succeeds; and what is stored stays inside the window of the queue's new origin *)
Theorem C28_top_is_within_one_bucket_of_the_minimum :
  forall size inc q h S T q1 x, 0 < size -> 2 * size <= 4294967296 -> (0 < inc)%R ->
  thist size inc q h S T -> S <> [] -> uq_top q = Ok (q1, x) ->
  In x S /\ (forall y, In y S -> (T x < T y + inc / IZR size)%R) /\
  exists t1, uq_t0 q1 = XFin t1 /\ (t1 <= T x)%R /\ (forall y, In y S -> (t1 <= T y < t1 + inc)%R).
Proof.
  intros size inc q h S T q1 x Hs Hs2 Hi H Hne Ht.
  destruct (thist_QI size inc Hs Hs2 Hi q h S T H) as [_ K]. destruct (K Hne) as [t0 I].
  destruct (top_X size inc Hs Hi _ _ _ _ _ I Ht) as [t1 [r [_ [I1 [Ex [Hr Hy]]]]]].
  injection Ex as ->.
  pose proof (thist_uhist size inc Hs Hs2 _ _ _ _ H) as Hu.
  destruct (C28_pop_removes_what_top_returned XR q h S Hu Hne) as [q1' [x' [q2 [A [_ [B [Eb _]]]]]]]. rewrite Ht in A. injection A as <- <-.
  destruct (uhist_spec _ _ _ Hu) as [U [_ [Hnd [P Hb]]]].
  split; [exact B|]. split.
  - intros y HyS. assert (Hyb : In y (bag q)) by (eapply Permutation_in; [symmetry; exact P|exact HyS]).
    pose proof (Hy y (T y) Hyb eq_refl). lra.
  - exists t1. split; [apply (qi_t0 _ _ _ _ _ I1)|]. split; [lra|]. intros y HyS.
    assert (Hu1 : uhist q1 h S) by (eapply uh_top; [exact Hu|exact Ht]).
    destruct (uhist_spec _ _ _ Hu1) as [_ [_ [_ [_ Hb1]]]]. destruct (Hb1 y HyS) as [C1 C2].
    rewrite (qi_size _ _ _ _ _ I1) in C1. destruct (qi_slot _ _ _ _ _ I1 y (h y) C1 C2) as [r2 [Er Hsl]]. injection Er as <-.
    unfold in_slot in Hsl. pose proof (Z.mod_pos_bound (h y - uq_i0 q1) size Hs) as Hm. set (o := (h y - uq_i0 q1) mod size) in *.
    assert (E : (IZR size * (inc / IZR size) = inc)%R) by (pose proof (IZR_lt _ _ Hs); field; lra).
    pose proof (IZR_le _ _ (proj1 Hm)). assert (IZR o + 1 <= IZR size)%R by (rewrite <- plus_IZR; apply IZR_le; lia).
    assert (0 < inc / IZR size)%R by (apply Rdiv_lt_0_compat; [exact Hi|apply IZR_lt; exact Hs]).
    split; [|].
    + assert (0 <= IZR o * (inc / IZR size))%R by (apply Rmult_le_pos; lra). lra.
    + assert ((IZR o + 1) * (inc / IZR size) <= IZR size * (inc / IZR size))%R by (apply Rmult_le_compat_r; lra). lra.
Qed.
Print Assumptions C28_top_is_within_one_bucket_of_the_minimum.

Theorem C28_calls_inside_the_window_succeed :
  forall size inc q h S T t t0, 0 < size -> 2 * size <= 4294967296 -> (0 < inc)%R ->
  thist size inc q h S T -> S <> [] -> uq_t0 q = XFin t0 -> (t0 <= t < t0 + inc)%R ->
  (forall e, ~ In e S -> exists r, uq_push q e (XFin t : XR) = Ok r) /\
  (forall e, In e S -> exists r, uq_increase q e (h e) (XFin t : XR) = Ok r).
Proof.
  intros size inc q h S T t t0 Hs Hs2 Hi H Hne E0 Ht.
  destruct (thist_QI size inc Hs Hs2 Hi q h S T H) as [_ K]. destruct (K Hne) as [t1 I].
  assert (t1 = t0) by (pose proof (qi_t0 _ _ _ _ _ I) as Q; rewrite E0 in Q; congruence). subst t1.
  pose proof (uhist_spec _ _ _ (thist_uhist size inc Hs Hs2 _ _ _ _ H)) as [U [_ [Hnd [P Hb]]]].
  assert (Hbg : bag q <> []) by (intros Q; rewrite Q in P; apply Permutation_nil in P; contradiction).
  split; intros e He.
  - assert (~ In e (bag q)) by (intros Q; apply He; eapply Permutation_in; [exact P|exact Q]).
    destruct (push_X size inc Hs Hs2 Hi (st_ T) q t0 e t I Hbg H0 Ht) as [q2 [b2 [Hp2 _]]]. eauto.
  - destruct (Hb e He) as [B1 B2]. rewrite (qi_size _ _ _ _ _ I) in B1.
    assert (Hnd' : NoDup (bag q)) by (eapply Permutation_NoDup; [symmetry; exact P|exact Hnd]).
    destruct (incr_X size inc Hs Hs2 Hi (st_ T) q t0 e (h e) t I Hnd' B1 B2 Ht) as [q2 [b2 [Hp2 _]]]. eauto.
Qed.
Print Assumptions C28_calls_inside_the_window_succeed.

(** the hypotheses are met: 4 buckets over [0,1), elements 10@5, 11@5.9, 12@5.3 *)
Example C28_timed_case : exists q h, thist 4 1 q h [12; 11; 10] (fun x => if x =? 12 then 5.3 else if x =? 11 then 5.9 else if x =? 10 then 5 else 0)%R /\
  exists q1, uq_top q = Ok (q1, 10).
Proof.
  set (T0 := (fun _ : Z => 0%R)). assert (Hs : 0 < 4) by lia. assert (Hs2 : 2 * 4 <= 4294967296) by lia. assert (Hi : (0 < 1)%R) by lra.
  assert (H0 : thist 4 1 (uq_new 4 (XFin 1 : XR)) (fun _ => 0) [] T0) by constructor.
  destruct (UI_new (N := XR) 4 (XFin 1) Hs) as [U0 B0].
  destruct (push_first_X 4 1 Hs Hi (st_ T0) _ 10 5 U0 B0 eq_refl (new_delta 4 1 Hs) eq_refl) as [q1 [b1 [P1 I1]]].
  assert (H1 := th_first 4 1 _ _ _ 10 5 q1 b1 H0 P1).
  pose proof (qi_t0 _ _ _ _ _ I1) as E1.
  destruct (C28_calls_inside_the_window_succeed 4 1 q1 _ _ _ 5.9 5 Hs Hs2 Hi H1 ltac:(discriminate) E1 ltac:(lra)) as [K1 _].
  destruct (K1 11 ltac:(cbn; lia)) as [[q2 b2] P2].
  assert (H2 := th_push 4 1 _ _ _ _ 11 5.9 5 q2 b2 H1 ltac:(discriminate) ltac:(cbn; lia) E1 ltac:(lra) P2).
  assert (Hbg : bag q1 <> []).
  { pose proof (uhist_spec _ _ _ (thist_uhist 4 1 Hs Hs2 _ _ _ _ H1)) as [_ [_ [_ [P _]]]]. intros Q. rewrite Q in P. apply Permutation_nil in P. discriminate. }
  assert (Hn11 : ~ In 11 (bag q1)).
  { pose proof (uhist_spec _ _ _ (thist_uhist 4 1 Hs Hs2 _ _ _ _ H1)) as [_ [_ [_ [P _]]]]. intros Q. apply (Permutation_in _ P) in Q. cbn in Q. lia. }
  assert (E2 : uq_t0 q2 = XFin 5).
  { destruct (push_X 4 1 Hs Hs2 Hi _ _ _ 11 5.9 I1 Hbg Hn11 ltac:(lra)) as [q2' [b2' [P2' I2]]]. rewrite P2 in P2'. injection P2' as <- <-. apply (qi_t0 _ _ _ _ _ I2). }
  destruct (C28_calls_inside_the_window_succeed 4 1 q2 _ _ _ 5.3 5 Hs Hs2 Hi H2 ltac:(discriminate) E2 ltac:(lra)) as [K2 _].
  destruct (K2 12 ltac:(cbn; lia)) as [[q3 b3] P3].
  assert (H3 := th_push 4 1 _ _ _ _ 12 5.3 5 q3 b3 H2 ltac:(discriminate) ltac:(cbn; lia) E2 ltac:(lra) P3).
  exists q3. eexists. split; [exact H3|].
  destruct (C28_pop_removes_what_top_returned XR q3 _ _ (thist_uhist 4 1 Hs Hs2 _ _ _ _ H3) ltac:(discriminate)) as [q4 [x [q5 [A [_ [B _]]]]]].
  destruct (C28_top_is_within_one_bucket_of_the_minimum 4 1 q3 _ _ _ q4 x Hs Hs2 Hi H3 ltac:(discriminate) A) as [_ [L _]].
  pose proof (L 10 ltac:(cbn; auto)) as L10. cbn in B. destruct B as [<-|[<-|[<-|[]]]]; cbn in L10; [lra|lra|].
  exists q4. exact A.
Qed.

(** and they are needed: in doubles, with 4 buckets over [0,4), a time past the window
    is put into the last bucket: after a@0 and b@1000, c@3 goes behind b in the same
    bucket, and b is given back before c *)
Definition c28_late : res (list Z) :=
  '(q, _) <- uq_push (uq_new 4 (nofZ 4 : F64)) 1 n0 ;;
  '(q, _) <- uq_push q 2 (nofZ 1000) ;;
  '(q, _) <- uq_push q 3 (nofZ 3) ;;
  '(q, x) <- uq_top q ;; q <- uq_pop q ;;
  '(q, y) <- uq_top q ;; q <- uq_pop q ;;
  '(q, z) <- uq_top q ;; Ok [x; y; z].
Theorem C28_late_times_are_given_back_out_of_order : c28_late = Ok [1; 2; 3].
Proof.
  vm_compute. reflexivity.
Qed.
Print Assumptions C28_late_times_are_given_back_out_of_order.

(** every time past the window (up to the largest bucket number that fits in 32 bits) is
    treated as if it lay in the last bucket width of the window *)
Theorem C28_late_times_share_the_last_bucket :
  forall size inc q h S T e t t' t0, 0 < size -> 2 * size <= 4294967296 -> (0 < inc)%R ->
  thist size inc q h S T -> S <> [] -> uq_t0 q = XFin t0 ->
  (t0 + inc <= t)%R -> ((t - t0) * IZR size / inc < 4294967296)%R -> (t0 + inc - inc / IZR size <= t' < t0 + inc)%R ->
  uq_push q e (XFin t : XR) = uq_push q e (XFin t' : XR) /\
  forall b, uq_increase q e b (XFin t : XR) = uq_increase q e b (XFin t' : XR).
Proof.
  intros size inc q h S T e t t' t0 Hs Hs2 Hi H Hne E0 Ht Hmax Ht'.
  destruct (thist_QI size inc Hs Hs2 Hi q h S T H) as [_ K]. destruct (K Hne) as [t1 I].
  pose proof I as [U Et0 Einc Ed Es _]. assert (t1 = t0) by congruence. subst t1.
  assert (HB : uq_bucket q (XFin t : XR) = uq_bucket q (XFin t' : XR)).
  { pose proof (IZR_lt _ _ Hs) as Hsp.
    assert (Ev : forall u, nfloor (ndiv (nmul (nsub (XFin u : XR) (uq_t0 q)) (nofZ (uq_size q))) (uq_inc q)) = Some (Rfloor ((u - t0) * IZR size / inc))).
    { intros u. rewrite Et0, Einc, Es. cbn. unfold Reqb. destruct (Req_EM_T inc 0) as [Q|Q]; [lra|]. reflexivity. }
    unfold uq_bucket, cast_floor_u32. rewrite !Ev, Es.
    assert (Hv : (IZR size <= (t - t0) * IZR size / inc)%R).
    { apply (Rmult_le_reg_r inc); [exact Hi|]. unfold Rdiv. rewrite Rmult_assoc, Rinv_l by lra. nra. }
    assert (Hv' : (IZR size - 1 <= (t' - t0) * IZR size / inc < IZR size)%R).
    { assert (E : (inc / IZR size * IZR size = inc)%R) by (field; lra).
      split; [apply (Rmult_le_reg_r inc); [exact Hi|]|apply (Rmult_lt_reg_r inc); [exact Hi|]]; unfold Rdiv; rewrite Rmult_assoc, Rinv_l by lra; rewrite Rmult_1_r.
      - assert ((inc - inc / IZR size) * IZR size <= (t' - t0) * IZR size)%R by (apply Rmult_le_compat_r; lra). nra.
      - assert ((t' - t0) * IZR size < inc * IZR size)%R by (apply Rmult_lt_compat_r; lra). lra. }
    set (v := ((t - t0) * IZR size / inc)%R) in *. set (v' := ((t' - t0) * IZR size / inc)%R) in *.
    pose proof (floor_spec v) as F. pose proof (floor_spec v') as F'.
    assert (A1 : size <= Rfloor v).
    { apply Z.lt_succ_r, lt_IZR. unfold Z.succ. rewrite plus_IZR. lra. }
    assert (A2 : Rfloor v < 4294967296) by (apply lt_IZR; lra).
    assert (A3 : Rfloor v' = size - 1).
    { assert (Rfloor v' < size) by (apply lt_IZR; lra). assert (size - 2 < Rfloor v') by (apply lt_IZR; rewrite minus_IZR; lra). lia. }
    rewrite A3. destruct (Z.leb_spec 0 (Rfloor v)); [|lia]. destruct (Z.ltb_spec (Rfloor v) 4294967296); [|lia].
    destruct (Z.leb_spec 0 (size - 1)); [|lia]. destruct (Z.ltb_spec (size - 1) 4294967296); [|lia]. cbn [andb bind].
    destruct (Z.eqb_spec size 0); [lia|]. destruct (Z.leb_spec size (Rfloor v)); [|lia]. destruct (Z.leb_spec size (size - 1)); [lia|]. reflexivity. }
  split; [|intros b; unfold uq_increase; rewrite HB; reflexivity].
  assert (Hnb : uq_nb q <> 0).
  { pose proof (uhist_spec _ _ _ (thist_uhist size inc Hs Hs2 _ _ _ _ H)) as [_ [_ [_ [P _]]]]. rewrite (ui_nb _ U), (Permutation_length P). destruct S; [congruence|cbn; lia]. }
  unfold uq_push, uq_empty. destruct (Z.eqb_spec (uq_nb q) 0); [contradiction|]. rewrite HB. reflexivity.
Qed.
Print Assumptions C28_late_times_share_the_last_bucket.

(** ** C65: what UFMM accepts *)
(** the narrow band of a new object: [size] buckets over [inc]; time 0 falls into its
    first bucket (true of the reals and of doubles, below) *)
Definition band_ok {N : Num} (size : Z) (inc : N) : Prop :=
  0 < size < 4294967296 /\ cast_floor_u32 (((n0 : N) - n0) * nofZ size / inc)%num = Ok 0.
Definition accepted {N : Num} (g : grid N) (i : Z) : Prop := exists c, getCell g i = Ok c /\ c_state c = FROZEN.

Theorem C65_ufmm_accepts_each_connected_cell_once :
  forall (N : Num) dims (g : grid N) init goal fuel size inc s log,
  shape_ok dims -> clean_grid dims g -> points_ok dims init -> separated dims g init -> band_ok size inc ->
  ufmm_run fuel goal init g (uq_new size inc) = Ok (s, log) ->
  NoDup log /\ Z.of_nat (length log) <= box_size dims /\
  (forall i, accepted (uf_g s) i <-> In i log) /\
  (forall i, In i log -> reachable dims (fun k => In k init) (free g) i) /\
  ((forall i, In i log <-> reachable dims (fun k => In k init) (free g) i) \/ hd_error log = Some goal).
Proof.
  intros N dims g init goal fuel size inc s log [H2 Hlt] [Hg Hc] [Hnd Hr] Hs [[Hz1 Hz2] Hcast] H.
  destruct (UI_new (N := N) size inc Hz1) as [U B].
  destruct (ufmm_struct dims H2 Hlt init g Hg Hs Hr (fun i c Hi => proj1 (proj2 (Hc i c Hi))) Hnd goal fuel (uq_new size inc) s log U B Hz2 Hcast H) as [rem [M D]].
  pose proof (mi_log _ _ _ _ _ _ _ _ M) as L1. cbn [app] in L1.
  split; [exact L1|]. split.
  { pose proof (MI_bound dims init g Hg _ _ _ _ M). pose proof (box_size_pos _ (dims2_proper' _ H2)). lia. }
  split.
  { intros i. pose proof (mi_fr _ _ _ _ _ _ _ _ M i) as F. cbn [app] in F. rewrite <- F. unfold accepted, cst.
    split; [intros [c [-> E]]; rewrite E; reflexivity|]. destruct (getCell (uf_g s) i) as [c|]; [|discriminate]. intros E. injection E as E. eauto. }
  split; [intros i Hi; apply (mi_reach _ _ _ _ _ _ _ _ M); exact Hi|].
  destruct D as [D|[r ->]]; [left|right; reflexivity]. intros i. eapply MI_done; eauto.
Qed.
Print Assumptions C65_ufmm_accepts_each_connected_cell_once.

(** without goal (any number that is not a cell) the run, when it returns, has accepted
    exactly the cells connected to the sources *)
Theorem C65_without_goal_all_connected_cells_are_accepted :
  forall (N : Num) dims (g : grid N) init goal fuel size inc s log i,
  shape_ok dims -> clean_grid dims g -> points_ok dims init -> separated dims g init -> band_ok size inc ->
  ~ (0 <= goal < box_size dims) ->
  ufmm_run fuel goal init g (uq_new size inc) = Ok (s, log) ->
  (accepted (uf_g s) i <-> reachable dims (fun k => In k init) (free g) i).
Proof.
  intros N dims g init goal fuel size inc s log i H1 H2 H3 H4 H5 Hgo H.
  destruct (C65_ufmm_accepts_each_connected_cell_once N dims g init goal fuel size inc s log H1 H2 H3 H4 H5 H) as [_ [_ [A [B D]]]].
  destruct D as [D|D]; [rewrite A; apply D|]. exfalso. destruct log as [|y l]; [discriminate|]. injection D as ->.
  apply Hgo. pose proof (B goal (or_introl eq_refl)) as Hre. inversion Hre as [k K E|k j K1 K2 K3 E]; [apply (proj2 H3); exact K|apply (adjacent_range _ _ _ K2)].
Qed.
Print Assumptions C65_without_goal_all_connected_cells_are_accepted.

(** the default band with doubles, and any band with the reals *)
Theorem C65_default_band_doubles : band_ok 1000 (nofZ 2 : F64).
Proof. split; [lia|]. vm_compute. reflexivity. Qed.
Theorem C65_band_exact : forall size inc, 0 < size < 4294967296 -> (0 < inc)%R -> band_ok size (XFin inc : XR).
Proof. intros size inc Hs Hi. split; [exact Hs|]. exact (start_cast size inc Hi (uq_new size (XFin inc : XR)) eq_refl eq_refl). Qed.

(** two free sources next to each other: the second one gets the time infinity, whose
    bucket number is not defined (and nothing of this is checked) *)
Definition c65_grid : grid F64 := vgrid [3;2] (n1 : F64) [z64 1; z64 1; z64 1; z64 1; z64 1; z64 1].
Theorem C65_adjacent_sources_are_undefined :
  ufmm_run 50 noGoal [0; 1] c65_grid (uq_new 1000 (nofZ 2)) = Fail UB /\
  (exists s log, ufmm_run 50 noGoal [0; 2] c65_grid (uq_new 1000 (nofZ 2)) = Ok (s, log) /\ log = [4; 5; 3; 1; 2; 0]).
Proof.
  split.
  - match goal with |- ?x = _ => assert (K : match x with Fail UB => true | _ => false end = true) by (vm_compute; reflexivity); destruct x as [r|[| |]] end;
      try discriminate K; reflexivity.
  - match goal with |- exists s log, ?x = _ /\ _ => assert (K : match x with Ok (_, l) => Some l | _ => None end = Some [4; 5; 3; 1; 2; 0]) by (vm_compute; reflexivity); destruct x as [[s l]|] end;
      [|discriminate K]. exists s, l. injection K as ->. auto.
Qed.
Print Assumptions C65_adjacent_sources_are_undefined.

(** ** C66: how close UFMM comes to the exact solution *)
Theorem C66_ufmm_error_is_at_most_one_bucket_per_cell :
  forall dims (g : grid XR) init size inc goal X fuel,
  exact_problem dims g init -> separated dims g init ->
  exact_solution dims (fun i => In i init) (free g) (slow g) X ->
  0 < size -> 2 * size <= 4294967296 -> (0 < inc)%R ->
  (forall i, free g i -> (slow g i <= inc - inc / IZR size)%R) ->
  box_size dims < Z.of_nat fuel ->
  exists s log, ufmm_run fuel goal init g (uq_new size (XFin inc : XR)) = Ok (s, log) /\
  (forall i, accepted (uf_g s) i -> exists x t, X i = Some x /\ times (uf_g s) i = Some t /\
     (x <= t <= x + Rmax (inc / IZR size) (2 * Rmargin) * IZR (box_size dims))%R) /\
  (forall i t, times (uf_g s) i = Some t -> exists x, X i = Some x /\ (x <= t)%R) /\
  ((forall i, accepted (uf_g s) i <-> X i <> None) \/ hd_error log = Some goal).
Proof.
  intros dims g init size inc goal X fuel HP Hsep HX Hs Hs2 Hi Hspan Hfuel.
  pose proof HP as [[H2 Hlt] [[Hg Hc] [Hre [Hnd Hr]]]].
  destruct (UI_new (N := XR) size (XFin inc) Hs) as [U B].
  assert (Hfr : forall i (c : cell XR), getCell g i = Ok c -> c_val c = XPInf) by (intros k c Hk; apply (Hc k c Hk)).
  assert (Hop : forall i (c : cell XR), getCell g i = Ok c -> c_state c = OPEN) by (intros k c Hk; apply (Hc k c Hk)).
  assert (Hfu : (Z.to_nat (box_size dims) < fuel)%nat) by (pose proof (box_size_pos _ (dims2_proper' _ H2)); lia).
  destruct (ufmm_X dims H2 Hlt init Hnd Hr g Hg Hre Hfr Hop Hsep X HX size inc Hs Hs2 Hi (Rmax (inc / IZR size) (2 * Rmargin))
    (Rmax_l _ _) (Rmax_r _ _) Hspan (uq_new size (XFin inc : XR)) U B eq_refl eq_refl (new_delta size inc Hs) (ex_intro _ 0%R eq_refl) goal fuel Hfu)
    as [s [log [E [A1 [A2 [A3 [A4 A5]]]]]]].
  assert (Hb : band_ok size (XFin inc : XR)) by (apply C65_band_exact; [lia|exact Hi]).
  destruct (C65_ufmm_accepts_each_connected_cell_once XR dims g init goal fuel size (XFin inc) s log
     (conj H2 Hlt) (conj Hg Hc) (conj Hnd Hr) Hsep Hb E) as [_ [_ [L _]]].
  exists s, log. split; [exact E|]. split; [|split; [exact A3|]].
  - intros i Hi'. apply L in Hi'. destruct (times (uf_g s) i) as [t|] eqn:Et; [|destruct (A2 i Hi' Et)].
    destruct (A1 i t Hi' Et) as [u [Eu Hu]]. exists u, t. auto.
  - destruct A5 as [A5|[r ->]]; [left|right; reflexivity]. intros i. rewrite L. split; [|apply A5].
    intros K. destruct (times (uf_g s) i) as [t|] eqn:Et; [|destruct (A2 i K Et)]. destruct (A1 i t K Et) as [u [-> _]]. discriminate.
Qed.
Print Assumptions C66_ufmm_error_is_at_most_one_bucket_per_cell.

(** without goal: every cell of the grid *)
Theorem C66_ufmm_whole_grid :
  forall dims (g : grid XR) init size inc goal X fuel,
  exact_problem dims g init -> separated dims g init ->
  exact_solution dims (fun i => In i init) (free g) (slow g) X ->
  0 < size -> 2 * size <= 4294967296 -> (0 < inc)%R ->
  (forall i, free g i -> (slow g i <= inc - inc / IZR size)%R) ->
  ~ (0 <= goal < box_size dims) -> box_size dims < Z.of_nat fuel ->
  exists s log, ufmm_run fuel goal init g (uq_new size (XFin inc : XR)) = Ok (s, log) /\
  forall i, match X i, times (uf_g s) i with
    | Some x, Some t => (x <= t <= x + Rmax (inc / IZR size) (2 * Rmargin) * IZR (box_size dims))%R
    | None, None => True
    | _, _ => False
    end.
Proof.
  intros dims g init size inc goal X fuel HP Hsep HX Hs Hs2 Hi Hspan Hgo Hfuel.
  destruct (C66_ufmm_error_is_at_most_one_bucket_per_cell dims g init size inc goal X fuel HP Hsep HX Hs Hs2 Hi Hspan Hfuel)
    as [s [log [E [A [B D]]]]]. exists s, log. split; [exact E|]. intros i.
  destruct D as [D|D].
  - destruct (X i) as [x|] eqn:Ex.
    + assert (K : accepted (uf_g s) i) by (apply D; rewrite Ex; discriminate). destruct (A i K) as [x' [t [E1 [-> E2]]]]. rewrite Ex in E1. injection E1 as <-. exact E2.
    + destruct (times (uf_g s) i) as [t|] eqn:Et; [|exact Logic.I]. destruct (B i t Et) as [x [K _]]. congruence.
  - exfalso. pose proof HP as [[H2 Hlt] [[Hg Hc] [Hre [Hnd Hr]]]].
    assert (Hb : band_ok size (XFin inc : XR)) by (apply C65_band_exact; [lia|exact Hi]).
    destruct (C65_ufmm_accepts_each_connected_cell_once XR dims g init goal fuel size (XFin inc) s log
      (conj H2 Hlt) (conj Hg Hc) (conj Hnd Hr) Hsep Hb E) as [_ [_ [_ [R _]]]].
    destruct log as [|y l]; [discriminate|]. injection D as ->.
    apply Hgo. pose proof (R goal (or_introl eq_refl)) as Hre'. inversion Hre' as [k K Ek|k j K1 K2 K3 Ek]; [apply Hr; exact K|apply (adjacent_range _ _ _ K2)].
Qed.
Print Assumptions C66_ufmm_whole_grid.

(** the hypotheses are met by the 3x3 grid with an obstacle in the middle and the default band *)
Example C66_case : exact_problem [3;3] ex_grid [0;8] /\ separated [3;3] ex_grid [0;8] /\
  (forall i, free ex_grid i -> (slow ex_grid i <= 2 - 2 / IZR 1000)%R) /\ free ex_grid 1.
Proof.
  destruct C15_case as [A [B [C D]]]. split; [exact A|]. split; [exact B|]. split; [|exact C].
  intros i [c [Hc Ho]]. pose proof A as [_ [_ [Hre _]]]. unfold slow. rewrite Hc. apply ex_grid_cells in Hc. destruct Hc as [Hi Hc].
  assert (El : g_leaf ex_grid = XFin 1).
  { unfold ex_grid. assert (Hp : proper [3;3]) by (repeat constructor; lia).
    assert (Hn : grid_ok [3;3] (new_grid [3;3] (XFin 1 : XR))) by (apply new_grid_ok; [exact Hp|reflexivity]).
    destruct (getCell_in [3;3] _ 4 Hn ltac:(cbn; lia)) as [c4 E4].
    destruct (updCell_in _ _ _ (fun c => with_occ c (XFin 0 : XR)) E4) as [g1 H1].
    unfold setVelocity. rewrite H1. destruct (updCell_fields _ _ _ _ H1) as [_ [-> _]]. reflexivity. }
  rewrite El. subst c. destruct (i =? 4).
  - exfalso. pose proof (nl_0_occ XR XR_laws) as K. unfold isOccupied in Ho. cbn [c_occ with_occ] in Ho. change (XFin 0 : XR) with (n0 : XR) in Ho. congruence.
  - cbn. lra.
Qed.

(** ... and the condition on slow cells is needed: 3 columns and 4 rows of unit velocity, a
    wall in the middle column except for one cell next to the source that takes 100 to cross.
    With the default band (1000 buckets over 2) its time is past the window, so it is
    accepted early and the cell behind it is frozen with a time above 100 although FMM
    reaches it around the wall in less than 10. *)
Definition c66_grid : grid F64 := vgrid [3;4] (n1 : F64)
  [z64 1; (z64 1 / z64 100)%num; z64 1;   z64 1; z64 0; z64 1;   z64 1; z64 0; z64 1;   z64 1; z64 1; z64 1].
Theorem C66_slow_cells_break_ufmm :
  exists s log st log' t t', ufmm_run 50 noGoal [0] c66_grid (uq_new 1000 (nofZ 2)) = Ok (s, log) /\
    time_is (uf_g s) 2 t /\ nltb (z64 100) t = true /\
    fmm_run RefHeap 50 no_heur noGoal [0] c66_grid (hempty RefHeap) = Ok (st, log') /\
    time_is (fs_g st) 2 t' /\ nltb t' (z64 10) = true.
Proof.
  assert (K1 : match ufmm_run 50 noGoal [0] c66_grid (uq_new 1000 (nofZ 2)) with
     Ok (s, _) => match getArrivalTime (uf_g s) 2 with Ok t => nltb (z64 100) t | _ => false end | _ => false end = true) by (vm_compute; reflexivity).
  assert (K2 : match fmm_run RefHeap 50 no_heur noGoal [0] c66_grid (hempty RefHeap) with
     Ok (s, _) => match getArrivalTime (fs_g s) 2 with Ok t => nltb t (z64 10) | _ => false end | _ => false end = true) by (vm_compute; reflexivity).
  destruct (ufmm_run 50 noGoal [0] c66_grid (uq_new 1000 (nofZ 2))) as [[s l]|]; [|discriminate K1].
  destruct (fmm_run RefHeap 50 no_heur noGoal [0] c66_grid (hempty RefHeap)) as [[st l']|]; [|discriminate K2].
  destruct (getArrivalTime (uf_g s) 2) as [t|] eqn:E1; [|discriminate K1]. destruct (getArrivalTime (fs_g st) 2) as [t'|] eqn:E2; [|discriminate K2].
  exists s, l, st, l', t, t'. unfold time_is. repeat split; assumption.
Qed.
Print Assumptions C66_slow_cells_break_ufmm.

(** Prop_Untidy.v - property theorems C28: the untidy queue. *)
From Coq Require Import Reals Lra Permutation.
From Verif Require Import Base BaseFacts Num NumXR NumF64 NumLaws Grid Eikonal FMMModel UntidyModel UntidySpec Untidy.
Open Scope Z_scope.

Lemma Rfloor_spec x : (IZR (Rfloor x) <= x < IZR (Rfloor x) + 1)%R.
Proof. unfold Rfloor. rewrite minus_IZR. destruct (archimed x). lra. Qed.

(** ** C28 *)
Theorem C28_untidy_queue_loses_nothing :
  forall (N : Num) (q : uq (N := N)) h S, uhist q h S ->
  NoDup S /\ Permutation (bag q) S /\ uq_nb q = Z.of_nat (length S) /\
  (forall e i, In e S -> 0 <= i < uq_size q -> (In e (bucket q i) <-> i = h e)) /\
  (forall e, In e S -> 0 <= h e < uq_size q).
Proof.
  intros N q h S H. destruct (uhist_spec q h S H) as [U [Hs [Hnd [P Hb]]]].
  split; [exact Hnd|]. split; [exact P|]. split; [rewrite (ui_nb _ U), (Permutation_length P); reflexivity|].
  split; [|intros e He; apply (Hb e He)]. intros e i He Hi. destruct (Hb e He) as [B1 B2]. split; [|intros ->; exact B2].
  intros Hin. eapply bucket_of_unique; eauto. eapply Permutation_NoDup; [symmetry; exact P|exact Hnd].
Qed.
Print Assumptions C28_untidy_queue_loses_nothing.

(** top and pop always succeed on a non-empty queue; top leaves the contents alone, its
    element is the back of the bucket it stopped at, and pop removes that element *)
Theorem C28_pop_removes_what_top_returned :
  forall (N : Num) (q : uq (N := N)) h S, uhist q h S -> S <> [] ->
  exists q1 x q2, uq_top q = Ok (q1, x) /\ uq_pop q = Ok q2 /\ In x S /\ bag q1 = bag q /\
    Permutation (bag q) (x :: bag q2) /\ ~ In x (bag q2) /\ uq_nb q2 = uq_nb q - 1 /\
    exists r, bucket q (uq_i0 q1) = r ++ [x].
Proof.
  intros N q h S H Hne. destruct (uhist_spec q h S H) as [U [Hs [Hnd [P Hb]]]].
  assert (Hbag : bag q <> []) by (intros E; rewrite E in P; apply Permutation_nil in P; contradiction).
  destruct (top_total q U Hbag) as [q1 [x Ht]]. destruct (pop_total q U) as [q2 Hp]. exists q1, x, q2.
  assert (Hnb : uq_nb q <> 0) by (rewrite (ui_nb _ U), (Permutation_length P); destruct S; [congruence|cbn; lia]).
  destruct (top_spec _ _ _ U Ht) as [_ [Et [_ [_ [r Hr]]]]]. destruct (pop_spec _ _ _ _ U Hnb Ht Hp) as [_ [P' [_ [En _]]]].
  split; [exact Ht|]. split; [exact Hp|].
  split; [eapply Permutation_in; [exact P|]; eapply Permutation_in; [symmetry; exact P'|left; reflexivity]|].
  split; [unfold bag; rewrite Et; reflexivity|]. split; [exact P'|]. split.
  - assert (Hn : NoDup (x :: bag q2)) by (eapply Permutation_NoDup; [|exact Hnd]; rewrite <- P, P'; reflexivity). inversion Hn; assumption.
  - split; [exact En|]. exists r. unfold bucket in *. rewrite <- Et. exact Hr.
Qed.
Print Assumptions C28_pop_removes_what_top_returned.

(** Exact arithmetic: push into a non-empty queue is defined exactly when the time is not
    below the origin and its bucket number fits in 32 bits. *)
Theorem C28_push_defined_from_the_origin_on :
  forall (q : uq (N := XR)) h S e t t0 inc, uhist q h S -> S <> [] ->
  uq_t0 q = XFin t0 -> uq_inc q = XFin inc -> (0 < inc)%R ->
  ((t0 <= t)%R -> ((t - t0) * IZR (uq_size q) / inc < 4294967296)%R -> exists r, uq_push q e (XFin t : XR) = Ok r) /\
  ((t < t0)%R -> uq_push q e (XFin t : XR) = Fail UB).
Proof.
  intros q h S e t t0 inc H Hne Et0 Einc Hinc. destruct (uhist_spec q h S H) as [U [Hs [Hnd [P Hb]]]].
  assert (Hnb : uq_nb q <> 0) by (rewrite (ui_nb _ U), (Permutation_length P); destruct S; [congruence|cbn; lia]).
  pose proof U as [A B C D]. pose proof (IZR_lt _ _ A) as HA.
  unfold uq_push, uq_empty. destruct (Z.eqb_spec (uq_nb q) 0) as [E|_]; [contradiction|].
  set (v := ((t - t0) * IZR (uq_size q) / inc)%R).
  assert (Ev : nfloor (ndiv (nmul (nsub (XFin t : XR) (uq_t0 q)) (nofZ (uq_size q))) (uq_inc q)) = Some (Rfloor v)).
  { rewrite Et0, Einc. cbn. unfold Reqb. destruct (Req_EM_T inc 0) as [K|K]; [lra|]. reflexivity. }
  pose proof (Rfloor_spec v) as Hfl.
  unfold uq_bucket, cast_floor_u32. rewrite Ev. split.
  - intros Hle Hlt. assert (Hv : (0 <= v)%R).
    { unfold v. apply Rmult_le_pos; [apply Rmult_le_pos; lra|]. apply Rlt_le, Rinv_0_lt_compat, Hinc. }
    assert (Hf : 0 <= Rfloor v < 4294967296).
    { split; [|apply lt_IZR; fold v in Hlt; lra]. apply Z.lt_succ_r, lt_IZR. unfold Z.succ. rewrite plus_IZR. lra. }
    destruct (Z.leb_spec 0 (Rfloor v)); [|lia]. destruct (Z.ltb_spec (Rfloor v) 4294967296); [|lia]. cbn [andb bind].
    destruct (Z.eqb_spec (uq_size q) 0); [lia|]. cbn [bind].
    match goal with |- context [vget ?l ?i] => destruct (vget_in_range l i) as [b ->] end.
    + rewrite B. apply Z.mod_pos_bound. exact A.
    + cbn [bind]. eauto.
  - intros Hlt. assert (Hv : (v < 0)%R).
    { unfold v, Rdiv. pose proof (Rinv_0_lt_compat _ Hinc). assert (0 < (t0 - t) * IZR (uq_size q) * / inc)%R by (apply Rmult_lt_0_compat; [apply Rmult_lt_0_compat; lra|lra]). lra. }
    assert (Hf : Rfloor v < 0) by (apply lt_IZR; lra).
    destruct (Z.leb_spec 0 (Rfloor v)); [lia|]. reflexivity.
Qed.
Print Assumptions C28_push_defined_from_the_origin_on.

(** ** cases *)
(** doubles: a history with pushes, an increase that changes bucket, and a pop *)
Definition c28_q1 := match uq_push (uq_new 4 (nofZ 4 : F64)) 10 (nofZ 5) with Ok (q, _) => q | _ => uq_new 4 (nofZ 4 : F64) end.
Definition c28_q2 := match uq_push c28_q1 11 (nofZ 7) with Ok (q, _) => q | _ => c28_q1 end.
Definition c28_q3 := match uq_increase c28_q2 11 2 (nofZ 6) with Ok (q, _) => q | _ => c28_q2 end.
Definition c28_q4 := match uq_pop c28_q3 with Ok q => q | _ => c28_q3 end.
Lemma c28_push (q : uq (N := F64)) e t q' b : (match uq_push q e t with Ok (_, c) => Some c | _ => None end) = Some b ->
  (match uq_push q e t with Ok (x, _) => x | _ => q end) = q' -> uq_push q e t = Ok (q', b).
Proof. destruct (uq_push q e t) as [[x c]|]; [|discriminate]. intros E <-. injection E as ->. reflexivity. Qed.
Lemma c28_incr (q : uq (N := F64)) e k t q' b : (match uq_increase q e k t with Ok (_, c) => Some c | _ => None end) = Some b ->
  (match uq_increase q e k t with Ok (x, _) => x | _ => q end) = q' -> uq_increase q e k t = Ok (q', b).
Proof. destruct (uq_increase q e k t) as [[x c]|]; [|discriminate]. intros E <-. injection E as ->. reflexivity. Qed.

Example C28_case : exists h3 h4, uhist c28_q3 h3 [11; 10] /\ bucket c28_q3 1 = [11] /\ bucket c28_q3 0 = [10] /\
  uhist c28_q4 h4 [11] /\ bag c28_q4 = [11] /\
  (exists e, uq_push c28_q4 12 (nofZ 4 : F64) = Fail e).
Proof.
  assert (P1 : uq_push (uq_new 4 (nofZ 4 : F64)) 10 (nofZ 5) = Ok (c28_q1, 0)) by (apply c28_push; [vm_compute; reflexivity|reflexivity]).
  assert (P2 : uq_push c28_q1 11 (nofZ 7) = Ok (c28_q2, 2)) by (apply c28_push; [vm_compute; reflexivity|reflexivity]).
  assert (P3 : uq_increase c28_q2 11 2 (nofZ 6) = Ok (c28_q3, 1)) by (apply c28_incr; [vm_compute; reflexivity|reflexivity]).
  assert (H3 : uhist c28_q3 (fun x => if x =? 11 then 1 else if x =? 11 then 2 else if x =? 10 then 0 else 0) [11; 10]).
  { apply (uh_incr c28_q2 (fun x => if x =? 11 then 2 else if x =? 10 then 0 else 0) [11;10] 11 (nofZ 6) c28_q3 1); [|left; reflexivity|exact P3].
    apply (uh_push c28_q1 (fun x => if x =? 10 then 0 else 0) [10] 11 (nofZ 7) c28_q2 2); [|cbn; lia|exact P2].
    apply (uh_push (uq_new 4 (nofZ 4)) (fun _ => 0) [] 10 (nofZ 5) c28_q1 0); [|intros []|exact P1]. constructor. lia. }
  exists (fun x => if x =? 11 then 1 else if x =? 11 then 2 else if x =? 10 then 0 else 0),
         (fun x => if x =? 11 then 1 else if x =? 11 then 2 else if x =? 10 then 0 else 0).
  split; [exact H3|]. split; [vm_compute; reflexivity|]. split; [vm_compute; reflexivity|]. split; [|split; [vm_compute; reflexivity|]].
  - destruct (C28_pop_removes_what_top_returned F64 c28_q3 _ _ H3 ltac:(discriminate)) as [q1 [x [q2 [Ht [Hp [Hx _]]]]]].
    assert (E : (match uq_top c28_q3 with Ok (_, y) => y | _ => -1 end) = 10) by (vm_compute; reflexivity). rewrite Ht in E. subst x.
    replace [11] with (filter (fun y => negb (y =? 10)) [11;10]) by reflexivity.
    eapply uh_pop; [exact H3|discriminate|exact Ht|]. unfold c28_q4. rewrite Hp. reflexivity.
  - assert (E : (match uq_push c28_q4 12 (nofZ 4 : F64) with Ok _ => false | Fail _ => true end) = true) by (vm_compute; reflexivity).
    destruct (uq_push c28_q4 12 (nofZ 4 : F64)); [discriminate|eauto].
Qed.


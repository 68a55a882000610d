(** Prop_Threshold.v - property theorem C84: how DDQM controls the threshold between its two
    queues. *)
From Coq Require Import Reals Lra.
From Verif Require Import Base BaseFacts Num NumXR NumF64 NumLaws Grid GridFacts GridUpd Spec Obs Examples Eikonal SweepModel QueueModel NoGoal FMMModel Prop_FMM Prop_Sweep Prop_Solver Prop_Heap.
Open Scope Z_scope.

(** ** specification *)
(** One round of DDQM: [rd_start] cells were in the lower queue when it began, [rd_taken]
    cells were taken from it until it was empty, [rd_kept] cells were put in the other queue. *)
Record round := mkRound { rd_start : Z; rd_taken : Z; rd_kept : Z }.

(** cells that were added to the lower queue during the round *)
Definition rd_low (r : round) : Z := rd_taken r - rd_start r.

Section Rule.
Context {N : Num}.
Local Open Scope num_scope.

(** share of the insertions that went to the lower queue; 1 without insertions *)
Definition share (r : round) : N :=
  if (rd_low r + rd_kept r =? 0)%Z then n1 else nofZ (rd_low r) / nofZ (rd_low r + rd_kept r)%Z.

(** step after the round: half as large again when at most 65% of the cells went to the lower
    queue, halved when at least 75% did *)
Definition next_step (step : N) (r : round) : N :=
  if share r <=? (nofZ 65%Z / nofZ 100%Z) then step * (nofZ 3%Z / nofZ 2%Z)
  else if (nofZ 75%Z / nofZ 100%Z) <=? share r then step / nofZ 2%Z
  else step.

(** threshold and step after a list of rounds *)
Fixpoint controlled (th step : N) (rs : list round) : N * N :=
  match rs with [] => (th, step) | r :: l => controlled (th + next_step step r) (next_step step r) l end.

(** rounds in sequence: each begins with the cells the one before put aside, the first with
    [q] cells, the last one puts nothing aside *)
Fixpoint in_sequence (q : Z) (rs : list round) : Prop :=
  match rs with [] => q = 0 | r :: l => rd_start r = q /\ 0 <= rd_kept r /\ 0 <= rd_low r /\ in_sequence (rd_kept r) l end.

(** queue operations and queue exchanges of the rounds *)
Fixpoint work (rs : list round) : Z := match rs with [] => 0 | r :: l => rd_taken r + 1 + work l end.
End Rule.

Section Proof84.
Context {N : Num}.
Implicit Types (s : dq_state (N := N)).

Lemma neighbor_counts t s n s' : ddqm_neighbor t s n = Ok s' -> exists l1 l2, dq_lo s' = dq_lo s ++ l1 /\ dq_hi s' = dq_hi s ++ l2 /\
  dq_c0 s' = dq_c0 s + Z.of_nat (length l1) /\ dq_c1 s' = dq_c1 s + Z.of_nat (length l1) + Z.of_nat (length l2) /\ dq_th s' = dq_th s /\ dq_step s' = dq_step s /\ dq_stop s' = dq_stop s.
Proof.
  unfold ddqm_neighbor. intros H. apply bind_ok in H. destruct H as [c [_ H]]. destruct (_ && _).
  - apply bind_ok in H. destruct H as [g [_ H]]. destruct (isTimeBetterThan t (dq_th s)); inversion H; subst.
    + exists [n], []. cbn. rewrite app_nil_r. repeat split; lia.
    + exists [], [n]. cbn. rewrite app_nil_r. repeat split; lia.
  - inversion H; subst. exists [], []. rewrite !app_nil_r. cbn. repeat split; lia.
Qed.

Lemma neighbors_counts t ns : forall s s', foldM (ddqm_neighbor t) ns s = Ok s' -> exists l1 l2, dq_lo s' = dq_lo s ++ l1 /\ dq_hi s' = dq_hi s ++ l2 /\
  dq_c0 s' = dq_c0 s + Z.of_nat (length l1) /\ dq_c1 s' = dq_c1 s + Z.of_nat (length l1) + Z.of_nat (length l2) /\ dq_th s' = dq_th s /\ dq_step s' = dq_step s /\ dq_stop s' = dq_stop s.
Proof.
  induction ns as [|n ns IH]; intros s s' H; cbn [foldM] in H.
  - inversion H; subst. exists [], []. rewrite !app_nil_r. cbn. repeat split; lia.
  - apply bind_ok in H. destruct H as [s1 [H1 H]]. destruct (neighbor_counts _ _ _ _ H1) as [a [b [A1 [A2 [A3 [A4 [A5 [A6 A7]]]]]]]].
    destruct (IH _ _ H) as [c [d [B1 [B2 [B3 [B4 [B5 [B6 B7]]]]]]]]. exists (a ++ c), (b ++ d). rewrite B1, A1, B2, A2, !app_assoc, !app_length.
    repeat split; try congruence; lia.
Qed.

Lemma pop_counts goal s i s' : ddqm_pop1 goal s i = Ok s' -> exists l1 l2, dq_lo s' = dq_lo s ++ l1 /\ dq_hi s' = dq_hi s ++ l2 /\
  dq_c0 s' = dq_c0 s + Z.of_nat (length l1) /\ dq_c1 s' = dq_c1 s + Z.of_nat (length l1) + Z.of_nat (length l2) /\ dq_th s' = dq_th s /\ dq_step s' = dq_step s.
Proof.
  unfold ddqm_pop1. intros H. apply bind_ok in H. destruct H as [c [_ H]]. destruct (isOccupied c).
  { inversion H; subst. exists [], []. rewrite !app_nil_r. cbn. repeat split; lia. }
  apply bind_ok in H. destruct H as [t [_ H]]. apply bind_ok in H. destruct H as [s1 [H1 H]]. apply bind_ok in H. destruct H as [g3 [_ H]]. inversion H; subst s'. clear H.
  cbn [dq_lo dq_hi dq_c0 dq_c1 dq_th dq_step]. destruct (isTimeBetterThan t (c_val c)).
  - apply bind_ok in H1. destruct H1 as [g1 [_ H1]]. apply bind_ok in H1. destruct H1 as [ns [_ H1]]. apply neighbors_counts in H1. destruct H1 as [a [b [A1 [A2 [A3 [A4 [A5 [A6 A7]]]]]]]]. eauto 10.
  - inversion H1; subst. exists [], []. rewrite !app_nil_r. cbn. repeat split; lia.
Qed.

Lemma increase_rule s q p : dq_c0 s + q = p -> dq_c1 s = dq_c0 s + Z.of_nat (length (dq_lo s)) ->
  let r := mkRound q p (Z.of_nat (length (dq_lo s))) in
  dq_th (increaseThreshold s) = nadd (dq_th s) (next_step (dq_step s) r) /\ dq_step (increaseThreshold s) = next_step (dq_step s) r.
Proof.
  intros H0 H1 r. assert (E : share (N := N) r = (if negb (dq_c1 s =? 0) then ndiv (nofZ (dq_c0 s)) (nofZ (dq_c1 s)) else n1)).
  { unfold share, r, rd_low. cbn [rd_taken rd_start rd_kept]. replace (p - q) with (dq_c0 s) by lia. rewrite <- H1. destruct (dq_c1 s =? 0); reflexivity. }
  unfold increaseThreshold, next_step. cbn [dq_th dq_step]. rewrite E. split; reflexivity.
Qed.

Lemma work_pos : forall rs q, 0 <= q -> in_sequence q rs -> 0 <= work rs.
Proof.
  induction rs as [|x rs IH]; intros q Hq H; cbn [work in_sequence] in *; [lia|]. destruct H as [E [E2 [E3 E4]]]. specialize (IH _ E2 E4). unfold rd_low in E3. lia.
Qed.

(** the loop, in the middle of a round that began with [q] cells and took [p] so far *)
Lemma loop_rounds goal : forall fuel s r q p, ddqm_loop fuel goal s = Ok r -> dq_stop r = false ->
  dq_stop s = false -> dq_c0 s + q = p + Z.of_nat (length (dq_lo s)) -> dq_c1 s = dq_c0 s + Z.of_nat (length (dq_hi s)) -> 0 <= dq_c0 s ->
  exists rd rs, rd_start rd = q /\ p + Z.of_nat (length (dq_lo s)) <= rd_taken rd /\ 0 <= rd_low rd /\ 0 <= rd_kept rd /\ in_sequence (rd_kept rd) rs /\
    (dq_th r, dq_step r) = controlled (dq_th s) (dq_step s) (rd :: rs) /\
    (forall f, work (rd :: rs) - p <= Z.of_nat f -> ddqm_loop f goal s = Ok r) /\ (forall f, Z.of_nat f < work (rd :: rs) - p -> ddqm_loop f goal s = Fail OutOfFuel).
Proof.
  induction fuel as [|fuel IH]; intros s r q p H Hr Hs Hc0 Hc1 Hpos; [discriminate H|]. cbn [ddqm_loop] in H. rewrite Hs in H.
  destruct (dq_lo s) as [|i l] eqn:El.
  - set (s0 := mkDq (dq_g s) (dq_hi s) [] (dq_th s) (dq_step s) (dq_c0 s) (dq_c1 s) false) in *.
    pose proof (increase_rule s0 q p) as R. cbn [s0 dq_c0 dq_c1 dq_lo dq_th dq_step] in R. cbn [length] in Hc0. specialize (R ltac:(lia) Hc1). destruct R as [R1 R2].
    set (rd := mkRound q p (Z.of_nat (length (dq_hi s)))) in *.
    assert (Hlow : 0 <= rd_low rd) by (unfold rd_low, rd; cbn; lia).
    destruct (dq_hi s) as [|j l'] eqn:Eh.
    + (* both empty: the run ends *)
      cbn in H. inversion H; subst r. exists rd, []. split; [reflexivity|]. split; [cbn; lia|]. split; [exact Hlow|]. split; [cbn; lia|]. split; [reflexivity|].
      split. { cbn [controlled]. rewrite <- R1, <- R2. reflexivity. }
      split.
      * intros f Hf. destruct f as [|f]; [cbn in Hf; lia|]. cbn [ddqm_loop]. rewrite El, Hs, Eh. reflexivity.
      * intros f Hf. destruct f as [|f]; [reflexivity|cbn in Hf; lia].
    + (* the next round *)
      set (s1 := increaseThreshold s0) in *. assert (E1 : dq_lo s1 = j :: l') by reflexivity. assert (E2 : dq_hi s1 = []) by reflexivity. assert (E3 : dq_stop s1 = false) by reflexivity.
      assert (H' : ddqm_loop fuel goal s1 = Ok r) by exact H.
      destruct (IH s1 r (Z.of_nat (length (j :: l'))) 0 H' Hr E3) as [rd2 [rs [A1 [A2 [A2' [A3 [A4 [A5 [A6 A7]]]]]]]]].
      { rewrite E1. cbn. lia. } { rewrite E2. cbn. lia. } { cbn. lia. }
      exists rd, (rd2 :: rs). split; [reflexivity|]. split; [cbn; lia|]. split; [exact Hlow|]. split; [cbn; lia|].
      split. { cbn [in_sequence]. split; [exact A1|]. split; [exact A3|]. split; [exact A2'|exact A4]. }
      split. { rewrite A5. cbn [controlled]. rewrite R1, R2. reflexivity. }
      assert (X : forall f, ddqm_loop (S f) goal s = ddqm_loop f goal s1) by (intros f; cbn [ddqm_loop]; rewrite El, Hs, Eh; reflexivity).
      split.
      * intros f Hf. destruct f as [|f]; [exfalso; pose proof (work_pos rs (rd_kept rd2) A3 A4); cbn [work rd rd_taken] in Hf; rewrite E1 in A2; pose proof (Zle_0_nat (length (j :: l'))); lia|].
        rewrite X. apply A6. cbn [work rd rd_taken] in Hf. cbn [work]. lia.
      * intros f Hf. destruct f as [|f]; [reflexivity|].
        rewrite X. apply A7. cbn [work rd rd_taken] in Hf. cbn [work]. lia.
  - apply bind_ok in H. destruct H as [s' [Hp H]]. destruct (pop_counts _ _ _ _ Hp) as [l1 [l2 [A1 [A2 [A3 [A4 [A5 A6]]]]]]]. cbn [dq_lo dq_hi dq_c0 dq_c1 dq_th dq_step] in *.
    assert (Hs' : dq_stop s' = false).
    { destruct (dq_stop s') eqn:E; [|reflexivity]. exfalso. destruct fuel as [|fuel]; [discriminate H|]. cbn [ddqm_loop] in H. rewrite E in H.
      assert (K : forall x : dq_state (N := N), dq_stop x = true -> (match dq_lo x, dq_hi x, dq_stop x with [], [], _ => Ok x | _, _, true => Ok x | _, _, false => ddqm_loop fuel goal x end) = Ok r -> dq_stop r = true).
      { intros x Hx K. rewrite Hx in K. destruct (dq_lo x), (dq_hi x); inversion K; subst; exact Hx. }
      destruct (dq_lo s'); apply K in H; [congruence|reflexivity|congruence|reflexivity]. }
    destruct (IH s' r q (p + 1) H Hr Hs') as [rd [rs [B1 [B2 [B2' [B3 [B4 [B5 [B6 B7]]]]]]]]].
    { rewrite A1, app_length. cbn [length] in Hc0. lia. } { rewrite A2, app_length. lia. } { lia. }
    exists rd, rs. split; [exact B1|]. split; [rewrite A1, app_length in B2; cbn [length]; lia|]. split; [exact B2'|]. split; [exact B3|]. split; [exact B4|].
    split; [rewrite B5, A5, A6; reflexivity|].
    assert (Hw : 0 <= work rs) by (apply (work_pos rs (rd_kept rd)); assumption).
    split.
    + intros f Hf. destruct f as [|f]; [exfalso; cbn [work] in Hf; lia|]. cbn [ddqm_loop]. rewrite El, Hs, Hp. cbn [bind]. apply B6. lia.
    + intros f Hf. destruct f as [|f]; [reflexivity|]. cbn [ddqm_loop]. rewrite El, Hs, Hp. cbn [bind]. apply B7. lia.
Qed.
End Proof84.

(** ** C84 *)
(** Any arithmetic, any grid, any initial points, thresholds and steps.  A run that was not
    stopped by the goal consists of rounds in sequence; threshold and step at its end follow
    from what the rounds did to the queues.  The rounds are those of the run: it needs
    exactly as many queue operations. *)
Theorem C84_threshold_follows_the_rounds :
  forall (N : Num) (g : grid N) init goal th step fuel r,
  ddqm_run fuel goal init th step g = Ok r -> dq_stop r = false ->
  exists rs, in_sequence (match rs with [] => 0 | rd :: _ => rd_start rd end) rs /\
    (dq_th r, dq_step r) = controlled th step rs /\
    (forall f, work rs <= Z.of_nat f -> ddqm_run f goal init th step g = Ok r) /\
    (forall f, Z.of_nat f < work rs -> ddqm_run f goal init th step g = Fail OutOfFuel).
Proof.
  intros N g init goal th step fuel r H Hs. unfold ddqm_run in *. apply bind_ok in H. destruct H as [g0 [E0 H]]. rewrite E0. cbn [bind].
  apply bind_ok in H. destruct H as [[g1 q] [E1 H]]. rewrite E1. cbn [bind]. destruct q as [|i q].
  - inversion H; subst r. exists []. cbn. repeat split; auto. intros f Hf; lia.
  - destruct (loop_rounds goal fuel _ r (Z.of_nat (length (i :: q))) 0 H Hs eq_refl) as [rd [rs [A1 [A2 [A2' [A3 [A4 [A5 [A6 A7]]]]]]]]].
    { cbn [dq_c0 dq_lo]. lia. } { reflexivity. } { cbn. lia. }
    exists (rd :: rs). split. { cbn [in_sequence]. repeat split; auto. } split; [exact A5|]. rewrite Z.sub_0_r in A6, A7. split; [exact A6|exact A7].
Qed.
Print Assumptions C84_threshold_follows_the_rounds.

(** ** exact arithmetic *)
(** a positive step stays positive: it is the first one times 3/2 or 1/2 once per round at
    most, and every round raises the threshold *)
Lemma next_step_exact (d : R) r : exists f : R, (f = 3 / 2 \/ f = 1 / 2 \/ f = 1)%R /\ next_step (XFin d : XR) r = (XFin (d * f) : XR).
Proof.
  unfold next_step. assert (E : forall a b c : bool, (if a then nmul (XFin d : XR) (ndiv (nofZ 3) (nofZ 2)) else if b then ndiv (XFin d : XR) (nofZ 2) else XFin d) = XFin (d * (if a then 3 / 2 else if b then 1 / 2 else 1))%R).
  { intros a b c. cbn. unfold Reqb. destruct (Req_EM_T 2 0); [lra|]. destruct a; [reflexivity|]. destruct b; f_equal; lra. }
  match goal with |- context [if ?a then _ else if ?b then _ else _] => exists (if a then 3 / 2 else if b then 1 / 2 else 1)%R; split; [destruct a; [auto|destruct b; auto]|exact (E a b true)] end.
Qed.

Theorem C84_positive_step_stays_positive :
  forall (g : grid XR) init goal (th step : R) fuel r,
  ddqm_run fuel goal init (XFin th : XR) (XFin step) g = Ok r -> dq_stop r = false -> (0 < step)%R ->
  exists (th' step' : R), dq_th r = XFin th' /\ dq_step r = XFin step' /\ (0 < step')%R /\ (th <= th')%R.
Proof.
  intros g init goal th step fuel r H Hs Hp. destruct (C84_threshold_follows_the_rounds XR g init goal _ _ fuel r H Hs) as [rs [_ [E _]]]. clear H Hs.
  revert th step Hp E. induction rs as [|x rs IH]; intros th step Hp E; cbn [controlled] in E.
  - inversion E. exists th, step. repeat split; auto. lra.
  - destruct (next_step_exact step x) as [f [Hf En]]. rewrite En in E.
    destruct (IH (th + step * f)%R (step * f)%R) as [th' [step' [A [B [C D]]]]]; [destruct Hf as [->|[->| ->]]; lra|exact E|].
    exists th', step'. repeat split; auto. destruct Hf as [->|[->| ->]]; lra.
Qed.
Print Assumptions C84_positive_step_stays_positive.

(** ** case *)
(** a 4x3 map with an obstacle and unequal speeds: three rounds and more *)
Definition c84_grid : grid F64 := vgrid [4;3] (n1 : F64) [z64 1; z64 1; half64; z64 1; z64 1; z64 0; z64 1; z64 2; z64 1; z64 1; half64; z64 1].
Example C84_case : exists r, ddqm_run 200 noGoal [0] half64 half64 c84_grid = Ok r /\ dq_stop r = false /\ nltb (half64 : F64) (dq_th r) = true /\
  ddqm_run 12 noGoal [0] half64 half64 c84_grid = Fail OutOfFuel.
Proof.
  assert (K : match ddqm_run 200 noGoal [0] half64 half64 c84_grid with Ok r => negb (dq_stop r) && nltb (half64 : F64) (dq_th r) | _ => false end = true) by (vm_compute; reflexivity).
  assert (K2 : match ddqm_run 12 noGoal [0] half64 half64 c84_grid with Fail OutOfFuel => true | _ => false end = true) by (vm_compute; reflexivity).
  destruct (ddqm_run 200 noGoal [0] half64 half64 c84_grid) as [r|]; [|discriminate K]. exists r. apply andb_true_iff in K. destruct K as [A B]. apply negb_true_iff in A.
  split; [reflexivity|]. split; [exact A|]. split; [exact B|]. destruct (ddqm_run 12 noGoal [0] half64 half64 c84_grid) as [|[| |]]; try discriminate K2. reflexivity.
Qed.

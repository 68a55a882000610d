(** GMMX.v - GMM in exact arithmetic: the band invariant, termination with a
    positive step, and no termination with step 0 (proofs for C37, C56). *)
From Coq Require Import Reals Lra Lia Permutation.
From Verif Require Import Base BaseFacts Num NumXR NumLaws Grid GridFacts GridUpd GridMore Spec Obs Eikonal
  SweepModel QueueModel Frame FMMStruct EikR Solution XGrid FMMAbs FMMX Relax Examples Term SweepX Exact Evolve Bound.
Open Scope Z_scope.

(** ** a state GMM cannot leave, any arithmetic *)
Section Stuck.
Context {N : Num}.

Lemma first_idle tm (g : grid N) l : (forall x, In x l -> exists t, getArrivalTime g x = Ok t /\ nleb t tm = false) ->
  foldM (gmm_first tm) l g = Ok g.
Proof.
  induction l as [|x l IH]; intros H; [reflexivity|]. cbn [foldM]. unfold gmm_first at 1.
  destruct (H x (or_introl eq_refl)) as [t [Ht Hl]]. rewrite Ht. cbn [bind]. rewrite Hl. cbn [bind].
  apply IH. intros y Hy. apply H. right; exact Hy.
Qed.

Lemma second_idle tm goal (g : grid N) l : forall kept pushed stop,
  (forall x, In x l -> exists t, getArrivalTime g x = Ok t /\ nleb t tm = false) ->
  gmm_second tm goal g kept l pushed stop = Ok (g, kept ++ l ++ pushed, stop).
Proof.
  induction l as [|x l IH]; intros kept pushed stop H; cbn [gmm_second]; [reflexivity|].
  destruct (H x (or_introl eq_refl)) as [t [Ht Hl]]. rewrite Ht. cbn [bind]. rewrite Hl.
  rewrite IH by (intros y Hy; apply H; right; exact Hy). rewrite <- app_assoc. reflexivity.
Qed.

Theorem gmm_stuck dt goal (s : gmm_state (N := N)) : gm_l s <> [] -> nadd (gm_tm s) dt = gm_tm s ->
  (forall x, In x (gm_l s) -> exists t, getArrivalTime (gm_g s) x = Ok t /\ nleb t (gm_tm s) = false) ->
  forall fuel, gmm_loop fuel dt goal s false = Fail OutOfFuel.
Proof.
  intros Hne Hdt Hx. induction fuel as [|k IH]; cbn [gmm_loop].
  - destruct (gm_l s); [congruence|reflexivity].
  - destruct (gm_l s) as [|a l] eqn:El; [congruence|]. rewrite <- El in *. rewrite Hdt. cbv zeta.
    rewrite first_idle by (intros x Hin; apply Hx; apply in_rev, Hin). cbn [bind].
    rewrite second_idle by exact Hx. cbn [bind app]. rewrite app_nil_r.
    replace (mkGmm (gm_g s) (gm_l s) (gm_tm s)) with s by (destruct s; reflexivity). exact IH.
Qed.
End Stuck.

(** ** RF is at most one cell later than its earliest value *)
Lemma RF_le_one fs ts t : (0 < fs)%R -> In t ts -> (RF fs Rmargin ts <= t + fs)%R.
Proof.
  intros Hf Hin. pose proof (Rsort_perm ts) as P. pose proof (Rsort_sorted ts) as S.
  rewrite <- (RF_perm fs Rmargin _ _ P). destruct (Rsort ts) as [|a r].
  { apply Permutation_nil in P. subst. destruct Hin. }
  inversion S as [|? ? _ HF]; subst. rewrite Forall_forall in HF.
  assert (Ha : (a <= t)%R).
  { assert (In t (a :: r)) as [<-|Hr] by (eapply Permutation_in; [symmetry; exact P|exact Hin]); [lra|apply HF, Hr]. }
  pose proof (RF_app_le fs Rmargin [a] r Hf Rmargin_pos ltac:(discriminate)) as B. cbn [app] in B.
  eapply Rle_trans; [apply B|].
  - intros x y [<-|[]] Hy. apply HF, Hy.
  - change (Rnd fs [a] <= t + fs)%R. rewrite Rnd_singleton. lra.
Qed.

Lemma free_dec' {N : Num} (g : grid N) i : {free g i} + {~ free g i}.
Proof.
  unfold free. destruct (getCell g i) as [c|e]; [|right; intros [c [H _]]; discriminate].
  destruct (isOccupied c) eqn:E; [right; intros [c' [H K]]; congruence|left; eauto].
Defined.

Section GX.
Variable dims : list Z.
Hypothesis Hd2 : dims2 dims.
Hypothesis Hlt : 2 * box_size dims <= 4294967296.
Variable init : list Z.
Hypothesis Hrng : forall i, In i init -> 0 <= i < box_size dims.
Variable g0 : grid XR.
Hypothesis Hg0 : grid_ok dims g0.
Hypothesis Hreal : reals_ok g0.
Hypothesis Hfresh : forall i c, getCell g0 i = Ok c -> c_val c = XPInf.
Hypothesis Hopen : forall i c, getCell g0 i = Ok c -> c_state c = OPEN.
Variable X : time_map.
Hypothesis HX : exact_solution dims (fun i => In i init) (free g0) (slow g0) X.

Let Hp : proper dims := dims2_proper dims Hd2.
Notation fr := (free g0).
Notation f := (slow g0).
Let Hf : forall i, fr i -> (0 < f i)%R.
Proof. intros i Hi. apply slow_pos; assumption. Qed.
Notation rng i := (0 <= i < box_size dims).

(** [L] is the band, [tm] the threshold; [EX i j]: the edge from i to j is still to be treated *)
Record GM (g : grid XR) (L : list Z) (tm : R) (EX : Z -> Z -> Prop) : Prop := {
  gm_ev : ev init g0 g;
  gm_in : forall x, In x L -> fr x /\ st g x <> OPEN /\ times g x <> None;
  gm_nar : forall x, rng x -> st g x = NARROW -> In x L;
  gm_pos : forall x t, rng x -> st g x <> FROZEN -> times g x = Some t -> (0 < t)%R;
  gm_fz : forall x, rng x -> st g x = FROZEN -> (In x init /\ times g x = Some 0%R) \/ (exists t, times g x = Some t /\ (t <= tm)%R);
  gm_clo : forall i j, rng i -> st g i = FROZEN -> adjacent dims i j -> fr j -> st g j <> OPEN \/ EX i j
}.

Lemma gm_ok g L tm EX : GM g L tm EX -> times_ok g /\ grid_ok dims g /\ reals_ok g /\ (forall i, slow g i = f i) /\
  frame (fun i => In i init) g0 g.
Proof.
  intros F. pose proof (ev_frame _ _ _ (gm_ev _ _ _ _ F)) as HF.
  destruct (ev_above dims init Hd2 Hlt X g0 g Hg0 Hreal HX Hfresh (gm_ev _ _ _ _ F)) as [A _].
  split; [exact A|]. split; [eapply frame_grid_ok; eauto|]. split; [eapply frame_reals; eauto|].
  split; [eapply frame_slow; eauto|exact HF].
Qed.

Lemma fr_rng i : fr i -> rng i.
Proof. intros [c [Hc _]]. apply getCell_range in Hc. destruct Hg0 as [_ <-]. exact Hc. Qed.

Lemma gm_solve g L tm EX i : GM g L tm EX -> fr i -> solveEikonal g i = Ok (ox (eik dims (f i) (times g) i)).
Proof.
  intros F Hfi. destruct (gm_ok _ _ _ _ F) as [A [B [C [D G]]]]. rewrite <- D.
  apply solveEikonal_X; auto; [eapply frame_free; eauto|apply fr_rng, Hfi].
Qed.

Lemma eik_pos g L tm EX i u : GM g L tm EX -> fr i -> eik dims (f i) (times g) i = Some u -> (0 < u)%R.
Proof.
  intros F Hfi He. destruct (gm_ok _ _ _ _ F) as [A _]. destruct (eik_some _ _ _ _ _ He) as [Hne Hu].
  destruct (RF_bounds (f i) Rmargin _ (Hf i Hfi) Rmargin_pos Hne) as [_ [_ [x [Hx Hxr]]]]. rewrite <- Hu in Hxr.
  apply upw_incl in Hx. apply (in_somes_dmins dims Hp) in Hx; [|apply fr_rng, Hfi].
  destruct Hx as [k [_ Hk]]. pose proof (times_nonneg _ _ _ A Hk). lra.
Qed.

(** a cell with a reached neighbour earlier than itself has an update *)
Lemma eik_reached g L tm EX i j t : GM g L tm EX -> fr j -> adjacent dims j i -> times g i = Some t ->
  (forall o, times g j = Some o -> (t < o)%R) ->
  exists u, eik dims (f j) (times g) j = Some u /\ (u <= t + f j)%R.
Proof.
  intros F Hfj Ha Ht Ho. pose proof (fr_rng j Hfj) as Hj.
  destruct (adjacent_adjacent_in _ _ _ Ha) as [d [Hd Hdj]].
  pose proof (dmin_spec dims (times g) j d Hp Hj Hd) as Hm.
  destruct (dmin dims (times g) j d) as [r|] eqn:Er; cbn in Hm.
  2:{ specialize (Hm i Hdj). congruence. }
  destruct Hm as [_ Hm]. specialize (Hm i t Hdj Ht).
  assert (Hin : In r (upw (times g j) (dmins dims (times g) j))).
  { assert (Hs : In r (somes (dmins dims (times g) j))).
    { apply in_somes, in_dmins. exists d. split; [exact Hd|symmetry; exact Er]. }
    destruct (times g j) as [o|]; cbn [upw]; [|exact Hs]. apply in_below. split; [exact Hs|]. specialize (Ho o eq_refl). lra. }
  unfold eik. destruct (upw (times g j) (dmins dims (times g) j)) as [|a l] eqn:Eu; [destruct Hin|].
  eexists. split; [reflexivity|]. pose proof (RF_le_one (f j) (a :: l) r (Hf j Hfj) Hin). lra.
Qed.

Lemma set_other (g g' : grid XR) i t k : setArrivalTime g i t = Ok g' -> k <> i -> times g' k = times g k.
Proof.
  intros H Hk. unfold times, getArrivalTime. rewrite (updCell_get _ _ _ _ k H).
  assert (E : (i =? k) = false) by (apply Z.eqb_neq; congruence). rewrite E. reflexivity.
Qed.

Lemma cell_at g L tm EX i : GM g L tm EX -> rng i -> exists c, getCell g i = Ok c /\ c_state c = st g i /\
  c_val c = ox (times g i).
Proof.
  intros F Hi. destruct (gm_ok _ _ _ _ F) as [A [B _]]. destruct (getCell_in dims g i B Hi) as [c Hc]. exists c.
  split; [exact Hc|]. split; [unfold st; rewrite Hc; reflexivity|]. rewrite (times_val g i c A Hc). reflexivity.
Qed.

(** a new time for a cell that is not accepted *)
Lemma gm_relax g L tm EX j u : GM g L tm EX -> fr j -> st g j <> FROZEN -> eik dims (f j) (times g) j = Some u ->
  exists g1, setArrivalTime g j (XFin u : XR) = Ok g1 /\ GM g1 L tm EX /\ times g1 j = Some u /\
    (forall k, st g1 k = st g k) /\ (forall k, k <> j -> times g1 k = times g k).
Proof.
  intros F Hfj Hst He. pose proof (fr_rng j Hfj) as Hj. destruct (gm_ok _ _ _ _ F) as [A [B [C [D G]]]].
  destruct (cell_at _ _ _ _ j F Hj) as [c [Hc _]].
  destruct (updCell_in g j c (fun c => with_val c (XFin u : XR)) Hc) as [g1 H1].
  change (setArrivalTime g j (XFin u : XR) = Ok g1) in H1. exists g1. split; [exact H1|].
  assert (Hs : forall k, st g1 k = st g k) by (intros k; eapply st_val; exact H1).
  assert (Ho : forall k, k <> j -> times g1 k = times g k) by (intros k; eapply set_other; exact H1).
  assert (Hu : times g1 j = Some u) by (rewrite (times_set g j u g1 H1); apply upd_same).
  pose proof (frame_free _ _ _ _ G Hfj) as [c' [Hc' Ho']]. assert (c' = c) by congruence. subst c'.
  split; [|auto]. destruct F as [F1 F2 F3 F4 F5 F6]. constructor.
  - eapply setval_free; [exact F1|exact Hc|exact Ho'| |exact H1]. rewrite <- D in He.
    rewrite (solveEikonal_X dims g j Hd2 Hlt B A C (ex_intro _ c (conj Hc Ho')) Hj), He. reflexivity.
  - intros x Hx. destruct (F2 x Hx) as [K1 [K2 K3]]. rewrite Hs. do 2 (split; [assumption|]).
    destruct (Z.eq_dec x j) as [->|Hne]; [congruence|rewrite Ho by exact Hne; exact K3].
  - intros x Hx. rewrite Hs. auto.
  - intros x t Hx. rewrite Hs. intros Hsx. destruct (Z.eq_dec x j) as [->|Hne].
    + rewrite Hu. intros E. injection E as <-. eapply (eik_pos g L tm EX); eauto. constructor; assumption.
    + rewrite Ho by exact Hne. apply F4; assumption.
  - intros x Hx. rewrite Hs. intros Hsx. assert (Hne : x <> j) by congruence. rewrite Ho by exact Hne. auto.
  - intros x y Hx. rewrite !Hs. auto.
Qed.

(** an OPEN cell with a finite time enters the band *)
Lemma gm_push g L tm EX j : GM g L tm EX -> fr j -> st g j <> FROZEN -> times g j <> None ->
  exists g1, setState g j NARROW = Ok g1 /\ GM g1 (L ++ [j]) tm EX /\ times g1 = times g /\
    (forall k, st g1 k = if j =? k then NARROW else st g k).
Proof.
  intros F Hfj Hst Ht. pose proof (fr_rng j Hfj) as Hj.
  destruct (cell_at _ _ _ _ j F Hj) as [c [Hc _]].
  destruct (updCell_in g j c (fun c => with_state c NARROW) Hc) as [g1 H1].
  change (setState g j NARROW = Ok g1) in H1. exists g1. split; [exact H1|].
  assert (Hs : forall k, st g1 k = if j =? k then NARROW else st g k) by (intros k; eapply st_set; exact H1).
  assert (E : times g1 = times g) by (eapply times_upd_keep; [exact H1|reflexivity]).
  split; [|auto]. destruct F as [F1 F2 F3 F4 F5 F6]. constructor; rewrite ?E.
  - eapply setst; [exact F1|exact H1].
  - intros x Hx. apply in_app_or in Hx. rewrite Hs. destruct Hx as [Hx|[<-|[]]].
    + destruct (F2 x Hx) as [K1 [K2 K3]]. split; [exact K1|]. split; [destruct (j =? x); [discriminate|exact K2]|exact K3].
    + rewrite Z.eqb_refl. split; [exact Hfj|]. split; [discriminate|exact Ht].
  - intros x Hx. rewrite Hs. intros Hn. apply in_or_app. destruct (Z.eqb_spec j x) as [->|Hne]; [right; left; reflexivity|left; auto].
  - intros x t Hx. rewrite Hs. destruct (Z.eqb_spec j x) as [<-|Hne]; intros Hn; [apply F4; assumption|apply F4; assumption].
  - intros x Hx. rewrite Hs. destruct (Z.eqb_spec j x) as [<-|Hne]; [discriminate|auto].
  - intros x y Hx. rewrite !Hs. destruct (Z.eqb_spec j x) as [<-|Hne]; [discriminate|]. intros Hn Ha Hy.
    destruct (j =? y); [left; discriminate|auto].
Qed.


Lemma skip_spec g L tm EX j c : GM g L tm EX -> getCell g j = Ok c ->
  gmm_skip c = true <-> (st g j = FROZEN \/ ~ fr j).
Proof.
  intros F Hc. destruct (gm_ok _ _ _ _ F) as [A [B [C [D G]]]]. unfold gmm_skip.
  assert (Hst : st g j = c_state c) by (unfold st; rewrite Hc; reflexivity). rewrite Hst.
  assert (Hfo : fr j <-> isOccupied c = false).
  { split.
    - intros H. apply (frame_free _ _ _ _ G) in H. destruct H as [c' [Hc' Ho']]. congruence.
    - intros H. eapply frame_free_inv; [exact G|]. exists c; split; assumption. }
  destruct (isOccupied c) eqn:Eo.
  { rewrite orb_true_r. cbn [orb]. split; [intros _; right; rewrite Hfo; discriminate|reflexivity]. }
  assert (Ez : neqb (c_occ c) (n0 : XR) = false).
  { destruct (free_vel g j c C Hc Eo) as [v [Ev Hv]]. rewrite Ev. change (Reqb v 0 = false). unfold Reqb. destruct (Req_EM_T v 0); [lra|reflexivity]. }
  rewrite Ez, !orb_false_r. destruct (c_state c); cbn; split; intros K; try reflexivity; try discriminate; auto;
    destruct K as [K|K]; try discriminate; exfalso; apply K, Hfo; reflexivity.
Qed.

Lemma ltb_ox u o : nltb (XFin u : XR) (ox o) = match o with Some r => if Rlt_dec u r then true else false | None => true end.
Proof. destruct o; reflexivity. Qed.

(** first pass *)
Lemma first_X tm L EX g i (TM : R) : GM g L tm EX -> In i L ->
  exists g1, gmm_first (XFin TM : XR) g i = Ok g1 /\ GM g1 L tm EX /\ (forall k, st g1 k = st g k) /\
    (forall k t, times g k = Some t -> exists t', times g1 k = Some t' /\ (t' <= t)%R).
Proof.
  intros F Hi. destruct (gm_in _ _ _ _ F i Hi) as [Hfi [_ Hti]]. pose proof (fr_rng i Hfi) as Hir.
  destruct (cell_at _ _ _ _ i F Hir) as [ci [Hci [_ Evi]]]. unfold gmm_first, getArrivalTime. rewrite Hci. cbn [bind].
  assert (Hid : forall k t, times g k = Some t -> exists t', times g k = Some t' /\ (t' <= t)%R) by (intros k t H; exists t; split; [exact H|lra]).
  destruct (nleb (c_val ci) (XFin TM : XR)); [|exists g; auto].
  destruct (gm_ok _ _ _ _ F) as [_ [[Hsh _] _]]. rewrite Hsh, getNeighbors_eq by auto. cbn [bind].
  apply (foldM_inv (fun g1 => GM g1 L tm EX /\ (forall k, st g1 k = st g k) /\
    (forall k t, times g k = Some t -> exists t', times g1 k = Some t' /\ (t' <= t)%R))); [auto|].
  intros g1 j Hj [F1 [S1 T1]]. assert (Hjr : rng j) by (eapply nbrs_range; eauto).
  destruct (cell_at _ _ _ _ j F1 Hjr) as [c [Hc [Es Ev]]]. rewrite Hc. cbn [bind].
  destruct (gmm_skip c) eqn:Ek; [exists g1; auto|].
  assert (Hsk : st g1 j <> FROZEN /\ fr j).
  { destruct (free_dec' g0 j) as [Hfj|Hfj].
    - split; [|exact Hfj]. intros K. assert (gmm_skip c = true) by (apply (skip_spec _ _ _ _ j c F1 Hc); auto). congruence.
    - exfalso. assert (gmm_skip c = true) by (apply (skip_spec _ _ _ _ j c F1 Hc); auto). congruence. }
  destruct Hsk as [Hsj Hfj]. rewrite (gm_solve _ _ _ _ j F1 Hfj). cbn [bind].
  destruct (eik dims (f j) (times g1) j) as [u|] eqn:Ee; cbn [ox].
  - rewrite Ev, ltb_ox. destruct (gm_relax _ _ _ _ j u F1 Hfj Hsj Ee) as [g2 [H2 [F2 [U2 [S2 O2]]]]].
    destruct (match times g1 j with Some r => if Rlt_dec u r then true else false | None => true end) eqn:El; [|exists g1; auto].
    exists g2. split; [exact H2|]. split; [exact F2|]. split; [intros k; rewrite S2; apply S1|].
    intros k t Hk. destruct (T1 k t Hk) as [t1 [K1 K2]]. destruct (Z.eq_dec k j) as [->|Hne].
    + exists u. split; [exact U2|]. rewrite K1 in El. destruct (Rlt_dec u t1); [lra|discriminate].
    + exists t1. rewrite O2 by exact Hne. auto.
  - replace (nltb (XPInf : XR) (c_val c)) with false by (destruct (c_val c); reflexivity). exists g1; auto.
Qed.

Lemma first_all_X tm EX (TM : R) L : forall l g, (forall x, In x l -> In x L) -> GM g L tm EX ->
  exists g1, foldM (gmm_first (XFin TM : XR)) l g = Ok g1 /\ GM g1 L tm EX /\ (forall k, st g1 k = st g k) /\
    (forall k t, times g k = Some t -> exists t', times g1 k = Some t' /\ (t' <= t)%R).
Proof.
  induction l as [|i l IH]; intros g Hl F; cbn [foldM].
  { exists g. split; [reflexivity|]. split; [exact F|]. split; [reflexivity|]. intros k t H; exists t; split; [exact H|lra]. }
  destruct (first_X tm L EX g i TM F (Hl i (or_introl eq_refl))) as [g1 [H1 [F1 [S1 T1]]]]. rewrite H1. cbn [bind].
  destruct (IH g1 ltac:(intros; apply Hl; right; assumption) F1) as [g2 [H2 [F2 [S2 T2]]]]. exists g2. split; [exact H2|].
  split; [exact F2|]. split; [intros k; rewrite S2; apply S1|].
  intros k t Hk. destruct (T1 k t Hk) as [t1 [K1 K2]]. destruct (T2 k t1 K1) as [t2 [K3 K4]]. exists t2. split; [exact K3|lra].
Qed.

(** number of OPEN cells *)
Definition is_open (g : grid XR) (i : Z) : bool := fmstate_eqb (st g i) OPEN.
Definition opens (g : grid XR) : nat := length (filter (is_open g) (zseq (Z.to_nat (box_size dims)))).

Lemma opens_same g g' : (forall k, st g' k = st g k) -> opens g' = opens g.
Proof. intros H. unfold opens. f_equal. apply filter_ext. intros k. unfold is_open. rewrite H. reflexivity. Qed.

Lemma opens_push g g' j : (forall k, st g' k = if j =? k then NARROW else st g k) -> rng j -> st g j = OPEN -> (opens g' < opens g)%nat.
Proof.
  intros H Hj Ho. unfold opens. apply (filter_lt _ _ _ j).
  - intros k. unfold is_open. rewrite H. destruct (j =? k); [discriminate|auto].
  - apply in_zseq. pose proof (box_size_pos _ Hp). lia.
  - unfold is_open. rewrite H, Z.eqb_refl. reflexivity.
  - unfold is_open. rewrite Ho. reflexivity.
Qed.

Lemma opens_freeze g g' i : (forall k, st g' k = if i =? k then FROZEN else st g k) -> (opens g' <= opens g)%nat.
Proof.
  intros H. unfold opens. apply filter_le. intros k. unfold is_open. rewrite H. destruct (i =? k); [discriminate|auto].
Qed.

Definition mu (g : grid XR) (l : list Z) : nat := (2 * opens g + length l)%nat.

Lemma GM_perm g L L' tm EX : (forall x, In x L <-> In x L') -> GM g L tm EX -> GM g L' tm EX.
Proof.
  intros H [F1 F2 F3 F4 F5 F6]. constructor; auto.
  - intros x Hx. apply F2, H, Hx.
  - intros x Hx Hn. apply H, F3; assumption.
Qed.

(** one neighbour of an accepted cell in the second pass *)
Lemma second_nb_X g L tm EX i ti (pushed : list Z) j : GM g (L ++ pushed) tm EX -> In j (nbrs dims i) -> rng i -> times g i = Some ti ->
  exists g1 p1, gmm_second_nb (g, pushed) j = Ok (g1, p1) /\ GM g1 (L ++ p1) tm EX /\ times g1 i = times g i /\
    (mu g1 (L ++ p1) <= mu g (L ++ pushed))%nat /\
    (forall k, st g k <> OPEN -> st g1 k = st g k) /\ (fr j -> st g1 j <> OPEN) /\
    (forall k t, k <> j -> times g k = Some t -> times g1 k = Some t) /\
    (forall t, times g j = Some t -> exists t', times g1 j = Some t' /\ (t' <= t)%R) /\
    (st g j = FROZEN -> times g1 j = times g j).
Proof.
  intros F Hj Hir Hti. assert (Hjr : rng j) by (eapply nbrs_range; eauto).
  assert (Ha : adjacent dims i j) by (apply nbrs_spec; auto).
  assert (Hij : i <> j) by (intros ->; exact (adjacent_irrefl _ _ Ha)).
  destruct (cell_at _ _ _ _ j F Hjr) as [c [Hc [Es Ev]]]. unfold gmm_second_nb. rewrite Hc. cbn [bind].
  assert (Hid : forall t, times g j = Some t -> exists t', times g j = Some t' /\ (t' <= t)%R) by (intros t H; exists t; split; [exact H|lra]).
  destruct (gmm_skip c) eqn:Ek.
  { exists g, pushed. split; [reflexivity|]. repeat (split; [auto; fail|]).
    split; [|auto]. apply (skip_spec _ _ _ _ j c F Hc) in Ek. intros Hfj. destruct Ek as [Ek|Ek]; [congruence|contradiction]. }
  assert (Hsk : st g j <> FROZEN /\ fr j).
  { destruct (free_dec' g0 j) as [Hfj|Hfj].
    - split; [|exact Hfj]. intros K. assert (gmm_skip c = true) by (apply (skip_spec _ _ _ _ j c F Hc); auto). congruence.
    - exfalso. assert (gmm_skip c = true) by (apply (skip_spec _ _ _ _ j c F Hc); auto). congruence. }
  destruct Hsk as [Hsj Hfj]. rewrite (gm_solve _ _ _ _ j F Hfj). cbn [bind].
  (* the grid after the possible new time *)
  assert (Hmid : exists g1, (if nltb (ox (eik dims (f j) (times g) j)) (c_val c) then setArrivalTime g j (ox (eik dims (f j) (times g) j)) else Ok g) = Ok g1 /\
     GM g1 (L ++ pushed) tm EX /\ (forall k, st g1 k = st g k) /\ (forall k, k <> j -> times g1 k = times g k) /\
     (forall t, times g j = Some t -> exists t', times g1 j = Some t' /\ (t' <= t)%R) /\ times g1 j <> None).
  { rewrite Ev. destruct (times g j) as [o|] eqn:Eo.
    - destruct (eik dims (f j) (times g) j) as [u|] eqn:Ee; cbn [ox].
      + change (nltb (XFin u : XR) (XFin o : XR)) with (Rltb u o). unfold Rltb. destruct (Rlt_dec u o) as [Hl|Hl].
        * destruct (gm_relax _ _ _ _ j u F Hfj Hsj Ee) as [g2 [H2 [F2 [U2 [S2 O2]]]]]. exists g2. split; [exact H2|].
          do 3 (split; [assumption|]). split; [|congruence]. intros t Ht. injection Ht as <-. exists u. split; [exact U2|lra].
        * exists g. split; [reflexivity|]. split; [exact F|]. split; [auto|]. split; [auto|]. split; [|congruence].
          intros t Ht. injection Ht as <-. exists o. split; [exact Eo|lra].
      + exists g. split; [reflexivity|]. split; [exact F|]. split; [auto|]. split; [auto|]. split; [|congruence].
        intros t Ht. injection Ht as <-. exists o. split; [exact Eo|lra].
    - destruct (eik_reached _ _ _ _ i j ti F Hfj (adjacent_sym _ _ _ Ha) Hti) as [u [Ee _]].
      { intros o K. congruence. }
      rewrite Ee. cbn [ox]. change (nltb (XFin u : XR) (XPInf : XR)) with true. cbv iota.
      destruct (gm_relax _ _ _ _ j u F Hfj Hsj Ee) as [g2 [H2 [F2 [U2 [S2 O2]]]]]. exists g2. split; [exact H2|].
      do 3 (split; [assumption|]). split; [discriminate|congruence]. }
  destruct Hmid as [g1 [H1 [F1 [S1 [O1 [T1 N1]]]]]]. rewrite H1. cbn [bind]. rewrite Es.
  destruct (fmstate_eqb (st g j) OPEN) eqn:Eop.
  - assert (Hop : st g j = OPEN) by (destruct (st g j); try reflexivity; discriminate).
    destruct (gm_push _ _ _ _ j F1 Hfj ltac:(rewrite S1; exact Hsj) N1) as [g2 [H2 [F2 [E2 S2]]]]. rewrite H2. cbn [bind].
    exists g2, (pushed ++ [j]). split; [reflexivity|]. split; [rewrite app_assoc; exact F2|].
    split; [rewrite E2; apply O1; exact Hij|]. split.
    { pose proof (opens_push g1 g2 j S2 Hjr ltac:(rewrite S1; exact Hop)) as Hlt2. rewrite (opens_same g g1 S1) in Hlt2.
      unfold mu. rewrite !app_length. cbn [length]. lia. }
    split; [intros k Hk; rewrite S2, S1; destruct (Z.eqb_spec j k) as [<-|]; [contradiction|reflexivity]|].
    split; [intros _; rewrite S2, Z.eqb_refl; discriminate|].
    split; [intros k t Hk Ht; rewrite E2, O1 by exact Hk; exact Ht|].
    split; [rewrite E2; exact T1|intros K; congruence].
  - exists g1, pushed. split; [reflexivity|]. split; [exact F1|]. split; [apply O1; exact Hij|].
    split; [unfold mu; rewrite (opens_same g g1 S1); lia|]. split; [intros k _; apply S1|].
    split; [intros _ K; rewrite S1 in K; rewrite K in Eop; discriminate|].
    split; [intros k t Hk Ht; rewrite O1 by exact Hk; exact Ht|]. split; [exact T1|contradiction].
Qed.



Lemma second_nbs_X L tm EX i ti : rng i -> forall ns g pushed, (forall j, In j ns -> In j (nbrs dims i)) ->
  GM g (L ++ pushed) tm EX -> times g i = Some ti ->
  exists g1 p1, foldM gmm_second_nb ns (g, pushed) = Ok (g1, p1) /\ GM g1 (L ++ p1) tm EX /\ times g1 i = Some ti /\
    (mu g1 (L ++ p1) <= mu g (L ++ pushed))%nat /\
    (forall k, st g k <> OPEN -> st g1 k = st g k) /\ (forall j, In j ns -> fr j -> st g1 j <> OPEN) /\
    (forall k t, times g k = Some t -> exists t', times g1 k = Some t' /\ (t' <= t)%R).
Proof.
  intros Hir. induction ns as [|j ns IH]; intros g pushed Hns F Hti; cbn [foldM].
  { exists g, pushed. split; [reflexivity|]. split; [exact F|]. split; [exact Hti|]. split; [lia|]. split; [auto|].
    split; [intros j []|]. intros k t H; exists t; split; [exact H|lra]. }
  destruct (second_nb_X g L tm EX i ti pushed j F (Hns j (or_introl eq_refl)) Hir Hti)
    as [g1 [p1 [H1 [F1 [T1 [M1 [S1 [O1 [K1 [J1 _]]]]]]]]]]. rewrite H1. cbn [bind].
  destruct (IH g1 p1 ltac:(intros; apply Hns; right; assumption) F1 ltac:(congruence))
    as [g2 [p2 [H2 [F2 [T2 [M2 [S2 [O2 K2]]]]]]]].
  exists g2, p2. split; [exact H2|]. split; [exact F2|]. split; [exact T2|]. split; [lia|].
  split; [intros k Hk; rewrite S2; [apply S1, Hk|rewrite S1 by exact Hk; exact Hk]|].
  split.
  { intros y [<-|Hy] Hfy; [rewrite S2; apply O1, Hfy|apply O2; assumption]. }
  intros k t Hk. assert (exists t1, times g1 k = Some t1 /\ (t1 <= t)%R) as [t1 [E1 L1]].
  { destruct (Z.eq_dec k j) as [->|Hne]; [apply J1, Hk|]. exists t. split; [apply K1; assumption|lra]. }
  destruct (K2 k t1 E1) as [t2 [E2 L2]]. exists t2. split; [exact E2|lra].
Qed.

Definition noEX : Z -> Z -> Prop := fun _ _ => False.

Lemma GM_tm g L tm tm' EX : (tm <= tm')%R -> GM g L tm EX -> GM g L tm' EX.
Proof.
  intros Hl [F1 F2 F3 F4 F5 F6]. constructor; auto. intros x Hx Hs. destruct (F5 x Hx Hs) as [K|[t [K1 K2]]]; [auto|].
  right. exists t. split; [exact K1|lra].
Qed.

(** accepting a cell *)
Lemma gm_accept g L i tm ti : GM g (i :: L) tm noEX -> times g i = Some ti -> (ti <= tm)%R ->
  (forall j, adjacent dims i j -> fr j -> st g j <> OPEN) ->
  exists g1, setState g i FROZEN = Ok g1 /\ GM g1 L tm noEX /\ times g1 = times g /\
    (forall k, st g1 k = if i =? k then FROZEN else st g k).
Proof.
  intros F Ht Hle Hcl. destruct (gm_in _ _ _ _ F i (or_introl eq_refl)) as [Hfi [Hso _]]. pose proof (fr_rng i Hfi) as Hi.
  destruct (cell_at _ _ _ _ i F Hi) as [c [Hc _]].
  destruct (updCell_in g i c (fun c => with_state c FROZEN) Hc) as [g1 H1].
  change (setState g i FROZEN = Ok g1) in H1. exists g1. split; [exact H1|].
  assert (Hs : forall k, st g1 k = if i =? k then FROZEN else st g k) by (intros k; eapply st_set; exact H1).
  assert (E : times g1 = times g) by (eapply times_upd_keep; [exact H1|reflexivity]).
  split; [|auto]. destruct F as [F1 F2 F3 F4 F5 F6]. constructor; rewrite ?E.
  - eapply setst; [exact F1|exact H1].
  - intros x Hx. rewrite Hs. destruct (F2 x (or_intror Hx)) as [K1 [K2 K3]]. split; [exact K1|]. split; [destruct (i =? x); [discriminate|exact K2]|exact K3].
  - intros x Hx. rewrite Hs. destruct (Z.eqb_spec i x) as [->|Hne]; [discriminate|]. intros Hn.
    destruct (F3 x Hx Hn) as [K|K]; [contradiction|exact K].
  - intros x t Hx. rewrite Hs. destruct (Z.eqb_spec i x) as [->|Hne]; [congruence|]. apply F4; assumption.
  - intros x Hx. rewrite Hs. destruct (Z.eqb_spec i x) as [->|Hne]; [|auto]. intros _. right. exists ti; auto.
  - intros x y Hx. rewrite !Hs. intros Hn Ha Hy. left. destruct (i =? y) eqn:Ey; [discriminate|].
    destruct (Z.eqb_spec i x) as [->|Hne]; [apply Hcl; assumption|]. destruct (F6 x y Hx Hn Ha Hy) as [K|[]]. exact K.
Qed.

Lemma mu_perm g L L' : length L = length L' -> mu g L = mu g L'.
Proof. unfold mu. lia. Qed.

Lemma ox_leb o tm : nleb (ox o) (XFin tm : XR) = match o with Some t => if Rle_dec t tm then true else false | None => false end.
Proof. destruct o; reflexivity. Qed.

Lemma time_at g L tm EX i : GM g L tm EX -> rng i -> getArrivalTime g i = Ok (ox (times g i)).
Proof.
  intros F Hi. destruct (cell_at _ _ _ _ i F Hi) as [c [Hc [_ Ev]]]. unfold getArrivalTime. rewrite Hc. cbn [bind]. rewrite Ev. reflexivity.
Qed.

(** second pass *)
Lemma second_X goal tm : forall l g kept pushed stop, GM g (kept ++ l ++ pushed) tm noEX ->
  exists g2 l2 stop2, gmm_second (XFin tm : XR) goal g kept l pushed stop = Ok (g2, l2, stop2) /\ GM g2 l2 tm noEX /\
    (mu g2 l2 <= mu g (kept ++ l ++ pushed))%nat /\
    ((exists x t, In x l /\ times g x = Some t /\ (t <= tm)%R) -> (mu g2 l2 < mu g (kept ++ l ++ pushed))%nat) /\
    (forall k, st g k = FROZEN -> st g2 k = FROZEN) /\
    (stop2 = true -> stop = true \/ (st g2 goal = FROZEN /\ In goal l)).
Proof.
  induction l as [|i r IH]; intros g kept pushed stop F; cbn [gmm_second app].
  { exists g, (kept ++ pushed), stop. split; [reflexivity|]. split; [exact F|]. split; [lia|]. split; [intros [x [t [[] _]]]|]. auto. }
  assert (Hin : In i (kept ++ (i :: r) ++ pushed)) by (apply in_or_app; right; left; reflexivity).
  destruct (gm_in _ _ _ _ F i Hin) as [Hfi [Hso Hto]]. pose proof (fr_rng i Hfi) as Hir.
  rewrite (time_at _ _ _ _ i F Hir). cbn [bind]. rewrite ox_leb.
  destruct (times g i) as [ti|] eqn:Et; [|congruence]. destruct (Rle_dec ti tm) as [Hle|Hle].
  - destruct (gm_ok _ _ _ _ F) as [_ [[Hsh _] _]]. rewrite Hsh, getNeighbors_eq by auto. cbn [bind].
    assert (Hcut : forall p, kept ++ (i :: r) ++ p = (kept ++ (i :: r)) ++ p) by (intros p; apply app_assoc).
    rewrite Hcut in F.
    destruct (second_nbs_X (kept ++ i :: r) tm noEX i ti Hir (nbrs dims i) g pushed ltac:(auto) F Et)
      as [g1 [p1 [H1 [F1 [T1 [M1 [S1 [O1 K1]]]]]]]]. rewrite H1. cbn [bind].
    assert (F1' : GM g1 (i :: kept ++ r ++ p1) tm noEX).
    { eapply GM_perm; [|exact F1]. intros x. cbn [In]. rewrite !in_app_iff. cbn [In]. tauto. }
    destruct (gm_accept g1 (kept ++ r ++ p1) i tm ti F1' T1 Hle) as [g2 [H2 [F2 [E2 S2]]]].
    { intros j Ha Hfj. apply O1; [|exact Hfj]. apply nbrs_spec; auto. }
    rewrite H2. cbn [bind]. destruct (IH g2 kept p1 (stop || (i =? goal)) F2) as [g3 [l3 [s3 [H3 [F3 [M3 [N3 [S3 G3]]]]]]]].
    exists g3, l3, s3. split; [exact H3|]. split; [exact F3|].
    assert (Hmu : (mu g3 l3 < mu g (kept ++ i :: r ++ pushed))%nat).
    { pose proof (opens_freeze g1 g2 i S2). unfold mu in *. rewrite !app_length in *. cbn [length] in *. rewrite !app_length in *. lia. }
    split; [cbn [app]; lia|]. split; [intros _; exact Hmu|].
    split.
    { intros k Hk. apply S3. rewrite S2. destruct (i =? k); [reflexivity|]. rewrite S1; [exact Hk|congruence]. }
    intros Hst. destruct (G3 Hst) as [K|[K1' K2]]; [|right; split; [exact K1'|right; exact K2]].
    apply orb_prop in K. destruct K as [K|K]; [left; exact K|]. apply Z.eqb_eq in K. subst goal. right.
    split; [|left; reflexivity]. apply S3. rewrite S2, Z.eqb_refl. reflexivity.
  - assert (F' : GM g ((kept ++ [i]) ++ r ++ pushed) tm noEX) by (rewrite <- app_assoc; exact F).
    destruct (IH g (kept ++ [i]) pushed stop F') as [g3 [l3 [s3 [H3 [F3 [M3 [N3 [S3 G3]]]]]]]].
    rewrite <- app_assoc in M3, N3. cbn [app] in M3, N3.
    exists g3, l3, s3. split; [exact H3|]. split; [exact F3|]. split; [exact M3|]. split.
    { intros [x [t [[<-|Hx] [Hxt Hxl]]]]; [assert (t = ti) by congruence; subst; contradiction|]. apply N3. eauto. }
    split; [exact S3|]. intros Hst. destruct (G3 Hst) as [K|[K1 K2]]; [left; exact K|right; split; [exact K1|right; exact K2]].
Qed.

(** one turn of the main loop *)
Lemma turn_X goal g L tm dt : GM g L tm noEX -> (0 <= dt)%R ->
  exists g1 g2 l2 stop2, foldM (gmm_first (XFin (tm + dt) : XR)) (rev L) g = Ok g1 /\
    gmm_second (XFin (tm + dt) : XR) goal g1 [] L [] false = Ok (g2, l2, stop2) /\ GM g2 l2 (tm + dt) noEX /\
    ((mu g2 l2 < mu g L)%nat \/
     (l2 = L /\ mu g2 l2 = mu g L /\ (forall k t, times g k = Some t -> exists t', times g2 k = Some t' /\ (t' <= t)%R) /\
      forall x t, In x L -> times g x = Some t -> (tm + dt < t)%R)) /\
    (forall k, st g k = FROZEN -> st g2 k = FROZEN) /\
    (stop2 = true -> st g2 goal = FROZEN /\ In goal L).
Proof.
  intros F Hdt. assert (F' : GM g L (tm + dt) noEX) by (eapply GM_tm; [|exact F]; lra).
  destruct (first_all_X (tm + dt) noEX (tm + dt) L (rev L) g ltac:(intros x Hx; apply in_rev, Hx) F') as [g1 [H1 [F1 [S1 T1]]]].
  assert (F1' : GM g1 ([] ++ L ++ []) (tm + dt) noEX) by (cbn [app]; rewrite app_nil_r; exact F1).
  destruct (second_X goal (tm + dt) L g1 [] [] false F1') as [g2 [l2 [s2 [H2 [F2 [M2 [N2 [S2 G2]]]]]]]].
  cbn [app] in M2, N2. rewrite app_nil_r in M2, N2.
  assert (Em : mu g1 L = mu g L) by (unfold mu; rewrite (opens_same g g1 S1); reflexivity).
  exists g1, g2, l2, s2. split; [exact H1|]. split; [exact H2|]. split; [exact F2|]. split.
  - destruct (existsb (fun x => match times g1 x with Some t => if Rle_dec t (tm + dt) then true else false | None => false end) L) eqn:Ex.
    + left. rewrite <- Em. apply N2. apply existsb_exists in Ex. destruct Ex as [x [Hx Hxt]].
      destruct (times g1 x) as [t|] eqn:Et; [|discriminate]. destruct (Rle_dec t (tm + dt)); [|discriminate]. eauto.
    + right.
      assert (Hno : forall x, In x L -> exists t, getArrivalTime g1 x = Ok t /\ nleb t (XFin (tm + dt) : XR) = false).
      { intros x Hx. destruct (gm_in _ _ _ _ F1 x Hx) as [Hfx _]. eexists. split; [exact (time_at _ _ _ _ x F1 (fr_rng x Hfx))|].
        rewrite ox_leb. destruct (match times g1 x with Some t => if Rle_dec t (tm + dt) then true else false | None => false end) eqn:Et; [|reflexivity].
        assert (existsb (fun x => match times g1 x with Some t => if Rle_dec t (tm + dt) then true else false | None => false end) L = true); [|congruence].
        apply existsb_exists. exists x; auto. }
      rewrite (second_idle _ goal g1 L [] [] false Hno) in H2. cbn [app] in H2. rewrite app_nil_r in H2. injection H2 as <- <- <-.
      split; [reflexivity|]. split; [exact Em|]. split; [exact T1|].
      intros x t Hx Ht. destruct (T1 x t Ht) as [t' [Et' Hl]]. destruct (Hno x Hx) as [v [Hv Hn]].
      destruct (gm_in _ _ _ _ F1 x Hx) as [Hfx _]. rewrite (time_at _ _ _ _ x F1 (fr_rng x Hfx)) in Hv. injection Hv as <-.
      rewrite ox_leb, Et' in Hn. destruct (Rle_dec t' (tm + dt)); [discriminate|lra].
  - split; [intros k Hk; apply S2; rewrite S1; exact Hk|]. intros Hst. destruct (G2 Hst) as [K|K]; [discriminate|exact K].
Qed.

(** termination *)
Lemma loop_X goal dt : (0 < dt)%R -> forall n g L tm, (mu g L <= n)%nat -> GM g L tm noEX ->
  exists fuel s' tm', gmm_loop fuel (XFin dt : XR) goal (mkGmm g L (XFin tm : XR)) false = Ok s' /\ GM (gm_g s') (gm_l s') tm' noEX /\
    (gm_l s' = [] \/ (st (gm_g s') goal = FROZEN /\ rng goal)) /\ (forall k, st g k = FROZEN -> st (gm_g s') k = FROZEN).
Proof.
  intros Hdt. induction n as [|n IHn]; intros g L tm Hn F.
  { assert (L = []) by (unfold mu in Hn; destruct L; [reflexivity|cbn in Hn; lia]). subst L.
    exists O, (mkGmm g [] (XFin tm : XR)), tm. split; [reflexivity|]. auto. }
  destruct L as [|a L].
  { exists O, (mkGmm g [] (XFin tm : XR)), tm. split; [reflexivity|]. auto. }
  destruct (times g a) as [ta|] eqn:Ea.
  2:{ destruct (gm_in _ _ _ _ F a (or_introl eq_refl)) as [_ [_ K]]. congruence. }
  assert (HK : exists K, (ta <= tm + INR K * dt)%R).
  { destruct (Rle_dec ta tm) as [Hl|Hl]; [exists O; cbn; lra|].
    destruct (archimed_cor1 (dt / (ta - tm))) as [K [HK1 HK2]]; [apply Rdiv_lt_0_compat; lra|].
    exists K. assert (0 < INR K)%R by (apply lt_0_INR; exact HK2).
    apply (Rmult_lt_compat_l (INR K)) in HK1; [|assumption]. rewrite Rinv_r in HK1 by lra.
    apply (Rmult_lt_compat_r (ta - tm)) in HK1; [|lra].
    replace (INR K * (dt / (ta - tm)) * (ta - tm))%R with (INR K * dt)%R in HK1 by (field; lra). lra. }
  destruct HK as [K HK]. remember (a :: L) as L0 eqn:EL0. revert g tm ta Ea Hn F HK. induction K as [|K IHK]; intros g tm ta Ea Hn F HK.
  all: destruct (turn_X goal g L0 tm dt F ltac:(lra)) as [g1 [g2 [l2 [s2 [H1 [H2 [F2 [M2 [S2 G2]]]]]]]]].
  all: assert (Hturn : forall fuel, gmm_loop (S fuel) (XFin dt : XR) goal (mkGmm g L0 (XFin tm : XR)) false =
     gmm_loop fuel (XFin dt : XR) goal (mkGmm g2 l2 (XFin (tm + dt) : XR)) s2) by
   (intros fuel; cbn [gmm_loop gm_l]; rewrite EL0; cbv zeta; cbn [gm_g gm_tm]; rewrite <- EL0;
    change (nadd (XFin tm : XR) (XFin dt : XR)) with (XFin (tm + dt) : XR); rewrite H1; cbn [bind]; rewrite H2; reflexivity).
  all: destruct s2; [exists 1%nat, (mkGmm g2 l2 (XFin (tm + dt) : XR)), (tm + dt)%R; rewrite Hturn; split; [reflexivity|];
     split; [exact F2|]; split; [right; destruct (G2 eq_refl) as [K1 K2]; split; [exact K1|]; apply fr_rng;
       apply (gm_in _ _ _ _ F goal K2)|exact S2]|].
  all: destruct M2 as [M2|[-> [M2 [T2 N2]]]].
  1,3: destruct (IHn g2 l2 (tm + dt)%R ltac:(lia) F2) as [fuel [s' [tm' [R1 [R2 [R3 R4]]]]]]; exists (S fuel), s', tm'; rewrite Hturn; split; [exact R1|]; split; [exact R2|]; split; [exact R3|intros k Hk; apply R4, S2, Hk].
  - exfalso. specialize (N2 a ta ltac:(subst; left; reflexivity) Ea). cbn in HK. lra.
  - destruct (T2 a ta Ea) as [ta' [Ea' Hl']].
    destruct (IHK g2 (tm + dt)%R ta' Ea' ltac:(lia) F2) as [fuel [s' [tm' [R1 [R2 [R3 R4]]]]]].
    { rewrite S_INR in HK. lra. }
    exists (S fuel), s', tm'. rewrite Hturn. split; [exact R1|]. split; [exact R2|]. split; [exact R3|intros k Hk; apply R4, S2, Hk].
Qed.

(** initial phase: setting a source *)
Lemma gm_source g L tm EX i : GM g L tm EX -> In i init ->
  exists g1 g2, setArrivalTime g i (n0 : XR) = Ok g1 /\ setState g1 i FROZEN = Ok g2 /\
    GM g2 L tm (fun a b => EX a b \/ (a = i /\ In b (nbrs dims i))) /\ times g2 i = Some 0%R /\ st g2 i = FROZEN /\
    (forall k, st g k <> OPEN -> st g2 k <> OPEN) /\ (forall k, st g k = FROZEN -> st g2 k = FROZEN).
Proof.
  intros F Hi. pose proof (Hrng i Hi) as Hir. destruct (cell_at _ _ _ _ i F Hir) as [c [Hc _]].
  destruct (updCell_in g i c (fun c => with_val c (n0 : XR)) Hc) as [g1 H1].
  change (setArrivalTime g i (n0 : XR) = Ok g1) in H1.
  assert (Hc1 : exists c1, getCell g1 i = Ok c1) by (rewrite (updCell_get _ _ _ _ i H1), Z.eqb_refl, Hc; eauto).
  destruct Hc1 as [c1 Hc1]. destruct (updCell_in g1 i c1 (fun c => with_state c FROZEN) Hc1) as [g2 H2].
  change (setState g1 i FROZEN = Ok g2) in H2. exists g1, g2. split; [exact H1|]. split; [exact H2|].
  assert (Hs : forall k, st g2 k = if i =? k then FROZEN else st g k).
  { intros k. rewrite (st_set _ _ _ _ k H2). destruct (i =? k); [reflexivity|]. eapply st_val; exact H1. }
  assert (E : times g2 = times g1) by (eapply times_upd_keep; [exact H2|reflexivity]).
  assert (Ti : times g2 i = Some 0%R) by (rewrite E, (times_set g i 0 g1 H1); apply upd_same).
  assert (To : forall k, k <> i -> times g2 k = times g k) by (intros k Hk; rewrite E; eapply set_other; eauto).
  split; [|split; [exact Ti|split; [rewrite Hs, Z.eqb_refl; reflexivity|split; intros k; rewrite Hs; destruct (i =? k); (discriminate || auto)]]].
  destruct F as [F1 F2 F3 F4 F5 F6]. constructor.
  - eapply setst; [|exact H2]. eapply setval_init; [exact Hi|exact F1|exact H1].
  - intros x Hx. rewrite Hs. destruct (F2 x Hx) as [K1 [K2 K3]]. split; [exact K1|].
    split; [destruct (i =? x); [discriminate|exact K2]|]. destruct (Z.eq_dec x i) as [->|Hne]; [congruence|rewrite To by exact Hne; exact K3].
  - intros x Hx. rewrite Hs. destruct (i =? x); [discriminate|auto].
  - intros x t Hx. rewrite Hs. destruct (Z.eqb_spec i x) as [->|Hne]; [congruence|]. rewrite To by congruence. apply F4; assumption.
  - intros x Hx. rewrite Hs. destruct (Z.eqb_spec i x) as [<-|Hne]; [auto|]. rewrite To by congruence. auto.
  - intros x y Hx. rewrite !Hs. intros Hn Ha Hy. destruct (i =? y) eqn:Ey; [left; discriminate|].
    destruct (Z.eqb_spec i x) as [<-|Hne]; [right; right; split; [reflexivity|apply nbrs_spec; auto]|].
    destruct (F6 x y Hx Hn Ha Hy) as [K|K]; auto.
Qed.

(** initial phase: the neighbours of a source.  [TM]: the threshold is absent while nothing was pushed. *)
Definition TMok (L : list Z) (tm : XR) : Prop := (L = [] /\ tm = (XPInf : XR)) \/ exists t, tm = (XFin t : XR).

Definition init_nb (s : gmm_state (N := XR)) (j : Z) : res (gmm_state (N := XR)) :=
  c <- getCell (gm_g s) j ;;
  if fmstate_eqb (c_state c) FROZEN || isOccupied c then Ok s
  else
    t <- solveEikonal (gm_g s) j ;;
    let tm' := if nltb t (gm_tm s) then t else gm_tm s in
    ga <- setArrivalTime (gm_g s) j t ;;
    gb <- setState ga j NARROW ;;
    Ok (mkGmm gb (gm_l s ++ [j]) tm').

Lemma GM_ex g L tm (EX EX' : Z -> Z -> Prop) : (forall a b, EX a b -> EX' a b) -> GM g L tm EX -> GM g L tm EX'.
Proof.
  intros H [F1 F2 F3 F4 F5 F6]. constructor; auto. intros i j Hi Hs Ha Hj. destruct (F6 i j Hi Hs Ha Hj) as [K|K]; [left; exact K|right; auto].
Qed.

Lemma init_nb_X i (EX : Z -> Z -> Prop) tm j ns : In i init -> In j (nbrs dims i) -> forall s,
  GM (gm_g s) (gm_l s) tm (fun a b => EX a b \/ (a = i /\ In b (j :: ns))) -> times (gm_g s) i = Some 0%R -> st (gm_g s) i = FROZEN ->
  TMok (gm_l s) (gm_tm s) ->
  exists s', init_nb s j = Ok s' /\ GM (gm_g s') (gm_l s') tm (fun a b => EX a b \/ (a = i /\ In b ns)) /\
    times (gm_g s') i = Some 0%R /\ st (gm_g s') i = FROZEN /\ TMok (gm_l s') (gm_tm s') /\
    (forall k, st (gm_g s) k = FROZEN -> st (gm_g s') k = FROZEN) /\
    (fr j -> st (gm_g s) j <> FROZEN -> exists u, gm_tm s' = (XFin u : XR) /\ (u <= f j)%R /\ gm_l s' <> []) /\
    (gm_l s <> [] -> gm_l s' <> []) /\
    (forall v, gm_tm s = (XFin v : XR) -> exists u, gm_tm s' = (XFin u : XR) /\ (u <= v)%R).
Proof.
  intros Hi Hj [g L tmx] F Ti Si HT. cbn [gm_g gm_l gm_tm] in *. pose proof (Hrng i Hi) as Hir.
  assert (Hjr : rng j) by (eapply nbrs_range; eauto). assert (Ha : adjacent dims i j) by (apply nbrs_spec; auto).
  assert (Hij : i <> j) by (intros ->; exact (adjacent_irrefl _ _ Ha)).
  destruct (cell_at _ _ _ _ j F Hjr) as [c [Hc [Es Ev]]]. unfold init_nb. cbn [gm_g gm_l gm_tm]. rewrite Hc. cbn [bind].
  assert (Hcl : (st g j <> OPEN \/ ~ fr j) -> GM g L tm (fun a b => EX a b \/ (a = i /\ In b ns))).
  { intros Hno. destruct F as [F1 F2 F3 F4 F5 F6]. constructor; auto. intros x y Hx Hs Hxy Hy.
    destruct (F6 x y Hx Hs Hxy Hy) as [K|[K|[-> [<-|K]]]]; auto. destruct Hno as [K|K]; [left; exact K|contradiction]. }
  assert (Hfo : fr j <-> isOccupied c = false).
  { destruct (gm_ok _ _ _ _ F) as [_ [_ [_ [_ G]]]]. split.
    - intros H. apply (frame_free _ _ _ _ G) in H. destruct H as [c' [Hc' Ho']]. congruence.
    - intros H. eapply frame_free_inv; [exact G|]. exists c; split; assumption. }
  destruct (fmstate_eqb (c_state c) FROZEN || isOccupied c) eqn:Ek.
  { exists (mkGmm g L tmx). cbn [gm_g gm_l gm_tm].
    assert (Hno : st g j = FROZEN \/ ~ fr j).
    { rewrite <- Es. apply orb_prop in Ek. destruct Ek as [Ek|Ek]; [left; destruct (c_state c); (discriminate || reflexivity)|].
      right. rewrite Hfo, Ek. discriminate. }
    split; [reflexivity|]. split; [apply Hcl; destruct Hno as [K|K]; [left; rewrite K; discriminate|right; exact K]|].
    do 4 (split; [auto; fail|]). split; [intros K1 K2; exfalso; tauto|]. split; [auto|]. intros v ->. exists v; split; [reflexivity|lra]. }
  apply orb_false_iff in Ek. destruct Ek as [Ek1 Ek2].
  assert (Hsj : st g j <> FROZEN) by (rewrite <- Es; intros K; rewrite K in Ek1; discriminate).
  assert (Hfj : fr j) by (apply Hfo, Ek2).
  destruct (eik_reached _ _ _ _ i j 0 F Hfj (adjacent_sym _ _ _ Ha) Ti) as [u [Ee Hu]].
  { intros o Ho. eapply (gm_pos _ _ _ _ F j o); auto. }
  rewrite (gm_solve _ _ _ _ j F Hfj), Ee. cbn [bind ox]. cbv zeta.
  destruct (gm_relax _ _ _ _ j u F Hfj Hsj Ee) as [g1 [H1 [F1 [U1 [S1 O1]]]]]. rewrite H1. cbn [bind].
  destruct (gm_push _ _ _ _ j F1 Hfj ltac:(rewrite S1; exact Hsj) ltac:(congruence)) as [g2 [H2 [F2 [E2 S2]]]]. rewrite H2. cbn [bind].
  eexists. split; [reflexivity|]. cbn [gm_g gm_l gm_tm]. split.
  { destruct F2 as [G1 G2 G3 G4 G5 G6]. constructor; auto. intros x y Hx Hs Hxy Hy.
    destruct (G6 x y Hx Hs Hxy Hy) as [K|[K|[-> [<-|K]]]]; auto. left. rewrite S2, Z.eqb_refl. discriminate. }
  split; [rewrite E2, O1 by exact Hij; exact Ti|].
  split; [rewrite S2, S1; destruct (Z.eqb_spec j i) as [K|]; [congruence|exact Si]|].
  assert (Htm : exists u', (if nltb (XFin u : XR) tmx then (XFin u : XR) else tmx) = (XFin u' : XR) /\ (u' <= u)%R /\ (forall v, tmx = (XFin v : XR) -> (u' <= v)%R)).
  { destruct HT as [[_ ->]|[v ->]].
    - exists u. split; [reflexivity|]. split; [lra|discriminate].
    - change (nltb (XFin u : XR) (XFin v : XR)) with (Rltb u v). unfold Rltb. destruct (Rlt_dec u v).
      + exists u. split; [reflexivity|]. split; [lra|]. intros w K. injection K as <-. lra.
      + exists v. split; [reflexivity|]. split; [lra|]. intros w K. injection K as <-. lra. }
  destruct Htm as [u' [-> [Hu1 Hu2]]].
  split; [right; eauto|]. split; [intros k Hk; rewrite S2, S1; destruct (Z.eqb_spec j k) as [<-|]; [congruence|exact Hk]|].
  split; [intros _ _; exists u'; split; [reflexivity|]; split; [lra|destruct L; discriminate]|].
  split; [intros _; destruct L; discriminate|]. intros v Hv. exists u'. split; [reflexivity|apply Hu2, Hv].
Qed.

Lemma init_nbs_X i (EX : Z -> Z -> Prop) tm : In i init -> forall ns s, (forall j, In j ns -> In j (nbrs dims i)) ->
  GM (gm_g s) (gm_l s) tm (fun a b => EX a b \/ (a = i /\ In b ns)) -> times (gm_g s) i = Some 0%R -> st (gm_g s) i = FROZEN ->
  TMok (gm_l s) (gm_tm s) ->
  exists s', foldM init_nb ns s = Ok s' /\ GM (gm_g s') (gm_l s') tm EX /\ TMok (gm_l s') (gm_tm s') /\
    (forall k, st (gm_g s) k = FROZEN -> st (gm_g s') k = FROZEN) /\
    (gm_l s <> [] -> gm_l s' <> []) /\
    (forall v, gm_tm s = (XFin v : XR) -> exists u, gm_tm s' = (XFin u : XR) /\ (u <= v)%R) /\
    (forall j, In j ns -> fr j -> st (gm_g s') j <> FROZEN -> exists u, gm_tm s' = (XFin u : XR) /\ (u <= f j)%R /\ gm_l s' <> []).
Proof.
  intros Hi. induction ns as [|j ns IH]; intros s Hns F Ti Si HT; cbn [foldM].
  { exists s. split; [reflexivity|]. split; [eapply GM_ex; [|exact F]; intros a b [K|[_ []]]; exact K|]. split; [exact HT|].
    split; [auto|]. split; [auto|]. split; [intros v ->; exists v; split; [reflexivity|lra]|intros j []]. }
  destruct (init_nb_X i EX tm j ns Hi (Hns j (or_introl eq_refl)) s F Ti Si HT) as [s1 [H1 [F1 [T1 [S1 [X1 [Z1 [P1 [L1 V1]]]]]]]]].
  rewrite H1. cbn [bind].
  destruct (IH s1 ltac:(intros; apply Hns; right; assumption) F1 T1 S1 X1) as [s2 [H2 [F2 [X2 [Z2 [L2 [V2 P2]]]]]]].
  exists s2. split; [exact H2|]. split; [exact F2|]. split; [exact X2|]. split; [auto|]. split; [auto|]. split.
  { intros v Hv. destruct (V1 v Hv) as [u [Hu Hl]]. destruct (V2 u Hu) as [w [Hw Hl2]]. exists w. split; [exact Hw|lra]. }
  intros y [<-|Hy] Hfy Hsy; [|apply P2; assumption].
  destruct (P1 Hfy ltac:(intros K; apply Hsy; auto)) as [u [Hu [Hl Hne]]]. destruct (V2 u Hu) as [w [Hw Hl2]].
  exists w. split; [exact Hw|]. split; [lra|auto].
Qed.

Lemma gmm_init1_eq (s : gmm_state (N := XR)) i : gmm_init1 s i =
  (g1 <- setArrivalTime (gm_g s) i (n0 : XR) ;; g2 <- setState g1 i FROZEN ;; ns <- getNeighbors (g_sh g2) i ;;
   foldM init_nb ns (mkGmm g2 (gm_l s) (gm_tm s))).
Proof. reflexivity. Qed.

Lemma init1_X tm i s : In i init -> GM (gm_g s) (gm_l s) tm noEX -> TMok (gm_l s) (gm_tm s) ->
  exists s', gmm_init1 s i = Ok s' /\ GM (gm_g s') (gm_l s') tm noEX /\ TMok (gm_l s') (gm_tm s') /\
    (forall k, st (gm_g s) k = FROZEN -> st (gm_g s') k = FROZEN) /\ st (gm_g s') i = FROZEN /\
    (gm_l s <> [] -> gm_l s' <> []) /\
    (forall v, gm_tm s = (XFin v : XR) -> exists u, gm_tm s' = (XFin u : XR) /\ (u <= v)%R) /\
    (forall j, adjacent dims i j -> fr j -> st (gm_g s') j <> FROZEN -> exists u, gm_tm s' = (XFin u : XR) /\ (u <= f j)%R /\ gm_l s' <> []).
Proof.
  intros Hi F HT. pose proof (Hrng i Hi) as Hir. rewrite gmm_init1_eq.
  destruct (gm_source _ _ _ _ i F Hi) as [g1 [g2 [H1 [H2 [F2 [T2 [S2 [O2 Z2]]]]]]]]. rewrite H1. cbn [bind]. rewrite H2. cbn [bind].
  destruct (gm_ok _ _ _ _ F2) as [_ [[Hsh _] _]]. rewrite Hsh, getNeighbors_eq by auto. cbn [bind].
  destruct (init_nbs_X i noEX tm Hi (nbrs dims i) (mkGmm g2 (gm_l s) (gm_tm s)) ltac:(auto) F2 T2 S2 HT)
    as [s' [H3 [F3 [X3 [Z3 [L3 [V3 P3]]]]]]].
  exists s'. split; [exact H3|]. split; [exact F3|]. split; [exact X3|]. cbn [gm_g gm_l gm_tm] in *.
  split; [auto|]. split; [auto|]. split; [exact L3|]. split; [exact V3|].
  intros j Ha. apply P3. apply nbrs_spec; auto.
Qed.

Lemma inits_X tm : forall ii s, (forall i, In i ii -> In i init) -> GM (gm_g s) (gm_l s) tm noEX -> TMok (gm_l s) (gm_tm s) ->
  exists s', foldM gmm_init1 ii s = Ok s' /\ GM (gm_g s') (gm_l s') tm noEX /\ TMok (gm_l s') (gm_tm s') /\
    (forall k, st (gm_g s) k = FROZEN -> st (gm_g s') k = FROZEN) /\ (forall i, In i ii -> st (gm_g s') i = FROZEN) /\
    (gm_l s <> [] -> gm_l s' <> []) /\
    (forall v, gm_tm s = (XFin v : XR) -> exists u, gm_tm s' = (XFin u : XR) /\ (u <= v)%R) /\
    (forall i j, In i ii -> adjacent dims i j -> fr j -> st (gm_g s') j <> FROZEN -> exists u, gm_tm s' = (XFin u : XR) /\ (u <= f j)%R /\ gm_l s' <> []).
Proof.
  induction ii as [|i ii IH]; intros s Hii F HT; cbn [foldM].
  { exists s. split; [reflexivity|]. split; [exact F|]. split; [exact HT|]. split; [auto|]. split; [intros i []|]. split; [auto|].
    split; [intros v ->; exists v; split; [reflexivity|lra]|intros i j []]. }
  destruct (init1_X tm i s (Hii i (or_introl eq_refl)) F HT) as [s1 [H1 [F1 [X1 [Z1 [I1 [L1 [V1 P1]]]]]]]]. rewrite H1. cbn [bind].
  destruct (IH s1 ltac:(intros; apply Hii; right; assumption) F1 X1) as [s2 [H2 [F2 [X2 [Z2 [I2 [L2 [V2 P2]]]]]]]].
  exists s2. split; [exact H2|]. split; [exact F2|]. split; [exact X2|]. split; [auto|].
  split; [intros y [<-|Hy]; auto|]. split; [auto|]. split.
  { intros v Hv. destruct (V1 v Hv) as [u [Hu Hl]]. destruct (V2 u Hu) as [w [Hw Hl2]]. exists w. split; [exact Hw|lra]. }
  intros y j [<-|Hy] Ha Hfj Hsj; [|eapply P2; eauto].
  destruct (P1 j Ha Hfj ltac:(intros K; apply Hsj; auto)) as [u [Hu [Hl Hne]]]. destruct (V2 u Hu) as [w [Hw Hl2]].
  exists w. split; [exact Hw|]. split; [lra|auto].
Qed.

Lemma GM_start tm : GM g0 [] tm noEX.
Proof.
  assert (Hn : forall x, times g0 x = None).
  { intros x. unfold times, getArrivalTime. destruct (getCell g0 x) as [c|] eqn:E; [|reflexivity]. cbn [bind]. rewrite (Hfresh x c E). reflexivity. }
  assert (Hs : forall x, rng x -> st g0 x = OPEN).
  { intros x Hx. destruct (getCell_in dims g0 x Hg0 Hx) as [c Hc]. unfold st. rewrite Hc. exact (Hopen x c Hc). }
  constructor.
  - apply ev_refl.
  - intros x [].
  - intros x Hx. rewrite (Hs x Hx). discriminate.
  - intros x t _ _. rewrite Hn. discriminate.
  - intros x Hx. rewrite (Hs x Hx). discriminate.
  - intros i j Hi. rewrite (Hs i Hi). discriminate.
Qed.

Theorem gmm_terminates goal dt : (0 < dt)%R -> exists fuel s', gmm_run fuel (XFin dt : XR) goal init g0 = Ok s' /\
  (gm_l s' = [] \/ (st (gm_g s') goal = FROZEN /\ rng goal)) /\ ev init g0 (gm_g s') /\
  (gm_l s' = [] -> forall i, reachable dims (fun i => In i init) fr i -> times (gm_g s') i <> None).
Proof.
  intros Hdt. destruct (inits_X 0 init (mkGmm g0 [] (XPInf : XR)) ltac:(auto) (GM_start 0) ltac:(left; auto))
    as [s [H1 [F1 [X1 [_ [I1 [_ [_ _]]]]]]]].
  assert (Hfin : exists fuel s' tm', gmm_loop fuel (XFin dt : XR) goal s false = Ok s' /\ GM (gm_g s') (gm_l s') tm' noEX /\
    (gm_l s' = [] \/ (st (gm_g s') goal = FROZEN /\ rng goal)) /\ (forall k, st (gm_g s) k = FROZEN -> st (gm_g s') k = FROZEN)).
  { destruct X1 as [[El Et]|[t Et]].
    - exists O, s, 0%R. cbn [gmm_loop]. rewrite El. split; [reflexivity|]. rewrite El in F1. auto.
    - destruct (inits_X t init (mkGmm g0 [] (XPInf : XR)) ltac:(auto) (GM_start t) ltac:(left; auto)) as [s2 [H1' [F1' _]]].
      rewrite H1 in H1'. injection H1' as <-. destruct s as [g L tm]. cbn [gm_g gm_l gm_tm] in *. subst tm.
      exact (loop_X goal dt Hdt _ g L t (le_n _) F1'). }
  destruct Hfin as [fuel [s' [tm' [H2 [F2 [G2 Z2]]]]]]. exists fuel, s'. unfold gmm_run.
  change (ninf : XR) with (XPInf : XR). rewrite H1. cbn [bind]. split; [exact H2|]. split; [exact G2|]. split; [exact (gm_ev _ _ _ _ F2)|].
  intros El i Hr. rewrite El in F2.
  assert (HZ : rng i /\ st (gm_g s') i = FROZEN).
  { induction Hr as [i Hi|i j Hr [IH1 IH2] Ha Hj].
    - split; [apply Hrng, Hi|apply Z2, I1, Hi].
    - pose proof (fr_rng j Hj) as Hjr. split; [exact Hjr|]. destruct (gm_clo _ _ _ _ F2 i j IH1 IH2 Ha Hj) as [K|[]].
      destruct (st (gm_g s') j) eqn:E; [congruence| |reflexivity]. destruct (gm_nar _ _ _ _ F2 j Hjr E). }
  destruct HZ as [HZ1 HZ2]. destruct (gm_fz _ _ _ _ F2 i HZ1 HZ2) as [[_ K]|[t [K _]]]; congruence.
Qed.


(** all cells reachable: accepted when the band is empty *)
Lemma gm_done g tm i : GM g [] tm noEX -> (forall k, In k init -> st g k = FROZEN) ->
  reachable dims (fun i => In i init) fr i -> rng i /\ st g i = FROZEN.
Proof.
  intros F Hi Hr. induction Hr as [i Hii|i j Hr [IH1 IH2] Ha Hj]; [split; [apply Hrng, Hii|apply Hi, Hii]|].
  pose proof (fr_rng j Hj) as Hjr. split; [exact Hjr|]. destruct (gm_clo _ _ _ _ F i j IH1 IH2 Ha Hj) as [K|[]].
  destruct (st g j) eqn:E; [congruence| |reflexivity]. destruct (gm_nar _ _ _ _ F j Hjr E).
Qed.

Lemma gm_late g L tm k x : GM g L tm noEX -> rng k -> X k = Some x -> (0 < x)%R -> (tm < x)%R -> st g k <> FROZEN.
Proof.
  intros F Hk HXk Hx0 Hx Hs. destruct (ev_above dims init Hd2 Hlt X g0 g Hg0 Hreal HX Hfresh (gm_ev _ _ _ _ F)) as [_ Hab].
  destruct (gm_fz _ _ _ _ F k Hk Hs) as [[_ Ht]|[t [Ht Hle]]]; destruct (Hab k _ Ht) as [y [Hy Hyl]]; rewrite HXk in Hy; injection Hy as <-; lra.
Qed.

(** with step 0 the loop never ends while a reachable cell is later than the threshold *)
Lemma loop_0 goal k x : reachable dims (fun i => In i init) fr k -> X k = Some x -> (0 < x)%R ->
  forall tm, (tm < x)%R -> (~ rng goal \/ exists y, X goal = Some y /\ (0 < y)%R /\ (tm < y)%R) ->
  forall n g L, (mu g L <= n)%nat -> GM g L tm noEX -> (forall i, In i init -> st g i = FROZEN) ->
  forall fuel, gmm_loop fuel (XFin 0 : XR) goal (mkGmm g L (XFin tm : XR)) false = Fail OutOfFuel.
Proof.
  intros Hr HXk Hx0 tm Htm Hgoal.
  assert (Hne : forall g, GM g [] tm noEX -> (forall i, In i init -> st g i = FROZEN) -> False).
  { intros g F Hi. destruct (gm_done g tm k F Hi Hr) as [A B]. exact (gm_late g [] tm k x F A HXk Hx0 Htm B). }
  assert (Ez : forall a : R, nadd (XFin a : XR) (XFin 0 : XR) = (XFin a : XR)).
  { intros a. change ((XFin (a + 0) : XR) = XFin a). rewrite Rplus_0_r. reflexivity. }
  induction n as [|n IHn]; intros g L Hn F Hi fuel.
  { assert (L = []) by (unfold mu in Hn; destruct L; [reflexivity|cbn in Hn; lia]). subst L. destruct (Hne g F Hi). }
  destruct L as [|a L]; [destruct (Hne g F Hi)|]. remember (a :: L) as L0 eqn:EL0.
  destruct (existsb (fun x => match times g x with Some t => if Rle_dec t tm then true else false | None => false end) L0) eqn:Ex.
  - destruct (turn_X goal g L0 tm 0 F ltac:(lra)) as [g1 [g2 [l2 [s2 [H1 [H2 [F2 [M2 [S2 G2]]]]]]]]].
    replace (tm + 0)%R with tm in * by lra.
    destruct M2 as [M2|[_ [_ [_ N2]]]].
    + destruct fuel as [|fuel]; [cbn [gmm_loop gm_l]; rewrite EL0; reflexivity|].
      cbn [gmm_loop gm_l]. rewrite EL0. cbv zeta. cbn [gm_g gm_tm]. rewrite <- EL0, Ez, H1. cbn [bind]. rewrite H2. cbn [bind].
      destruct s2.
      { exfalso. destruct (G2 eq_refl) as [K1 K2]. pose proof (fr_rng _ (proj1 (gm_in _ _ _ _ F goal K2))) as Hgr.
        destruct Hgoal as [Hg|[y [Hy [Hy0 Hyt]]]]; [contradiction|]. exact (gm_late g2 l2 tm goal y F2 Hgr Hy Hy0 Hyt K1). }
      apply IHn; [lia|exact F2|]. intros i Hii. apply S2, Hi, Hii.
    + exfalso. apply existsb_exists in Ex. destruct Ex as [y [Hy Hyt]]. destruct (times g y) as [t|] eqn:Et; [|discriminate].
      destruct (Rle_dec t tm); [|discriminate]. specialize (N2 y t Hy Et). lra.
  - apply gmm_stuck; cbn [gm_l gm_tm gm_g]; [subst L0; discriminate|apply Ez|].
    intros y Hy. destruct (gm_in _ _ _ _ F y Hy) as [Hfy _]. eexists. split; [exact (time_at _ _ _ _ y F (fr_rng y Hfy))|].
    rewrite ox_leb. destruct (match times g y with Some t => if Rle_dec t tm then true else false | None => false end) eqn:Et; [|reflexivity].
    assert (existsb (fun x => match times g x with Some t => if Rle_dec t tm then true else false | None => false end) L0 = true); [|congruence].
    apply existsb_exists. exists y; auto.
Qed.

Theorem gmm_step0 goal i j k x : In i init -> adjacent dims i j -> fr j -> ~ In j init ->
  reachable dims (fun i => In i init) fr k -> X k = Some x -> (f j < x)%R ->
  (~ rng goal \/ exists y, X goal = Some y /\ (f j < y)%R) ->
  forall fuel, gmm_run fuel (XFin 0 : XR) goal init g0 = Fail OutOfFuel.
Proof.
  intros Hi Ha Hfj Hj Hr HXk Hx Hgoal fuel. unfold gmm_run. change (ninf : XR) with (XPInf : XR).
  destruct (inits_X (-1) init (mkGmm g0 [] (XPInf : XR)) ltac:(auto) (GM_start _) ltac:(left; auto)) as [s [H1 [F1 [X1 [_ [I1 [_ [_ P1]]]]]]]].
  destruct (P1 i j Hi Ha Hfj) as [u [Eu [Hu _]]].
  { intros K. destruct (gm_fz _ _ _ _ F1 j (fr_rng j Hfj) K) as [[K1 _]|[t [K1 K2]]]; [contradiction|].
    destruct (gm_ok _ _ _ _ F1) as [A _]. pose proof (times_nonneg _ _ _ A K1). lra. }
  destruct (inits_X u init (mkGmm g0 [] (XPInf : XR)) ltac:(auto) (GM_start _) ltac:(left; auto)) as [s2 [H1' [F1' _]]].
  rewrite H1 in H1'. injection H1' as <-. rewrite H1. cbn [bind]. destruct s as [g L tm]. cbn [gm_g gm_l gm_tm] in *. subst tm.
  pose proof (Hf j Hfj) as Hfj0.
  apply (loop_0 goal k x Hr HXk ltac:(lra) u ltac:(lra)) with (n := mu g L); auto.
  destruct Hgoal as [K|[y [Ky Kl]]]; [left; exact K|right; exists y]. split; [exact Ky|]. lra.
Qed.

End GX.

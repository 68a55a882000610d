(** StarX.v - FMM with any heuristic in exact arithmetic: the cells with a finite time are
    exactly the marked ones. *)
From Coq Require Import Reals Lra Permutation.
From Verif Require Import Base BaseFacts Num NumXR NumLaws Grid GridFacts GridMore GridUpd XGrid Spec Obs EikR Eikonal FMMModel HeapLaws Frame
  Solution FMMStruct FMMReach FMMAbs FMMX Relax Examples Term.
Open Scope Z_scope.

Section Star.
Variable HO : HeapOps XR.
Variable HL : HeapLaws HO.
Variable dims : list Z.
Hypothesis Hd2 : dims2 dims.
Hypothesis Hlt : 2 * box_size dims <= 4294967296.
Variable cfg : fmm_cfg (N := XR).
Variable init : list Z.
Hypothesis Hheur : heur_ok dims cfg.
Let Hp : proper dims := dims2_proper' dims Hd2.

Definition fin (c : cell XR) : Prop := exists r, c_val c = XFin r.
Definition FI (g : grid XR) : Prop :=
  GIX dims g /\ forall i c, getCell g i = Ok c ->
    (c_state c = OPEN -> ~ In i init -> c_val c = XPInf) /\ (c_state c <> OPEN \/ In i init -> fin c).

Lemma FI_heur g j g' : FI g -> fmm_heur cfg g j = Ok g' -> FI g'.
Proof.
  intros [[A [B C]] D] H.
  assert (K : forall hv, setHeuristicTime g j hv = Ok g' -> FI g').
  { intros hv K. split; [split; [eapply updCell_grid_ok; eauto|]; split; [eapply upd_times_ok; eauto|eapply upd_reals_ok; eauto]|].
    intros i c Hc. rewrite (updCell_get _ _ _ _ i K) in Hc. destruct (j =? i); [|exact (D i c Hc)].
    destruct (getCell g i) as [c0|] eqn:E; [|discriminate]. injection Hc as <-. exact (D i c0 E). }
  unfold fmm_heur in H. destruct (fc_strat cfg); [injection H as <-; split; [split; auto|exact D]| |];
    (apply bind_ok in H; destruct H as [d [_ H]]); [apply bind_ok in H; destruct H as [c2 [_ H]]|]; eapply K; exact H.
Qed.

Lemma FI_heur_cell g j g' i c : fmm_heur cfg g j = Ok g' -> getCell g i = Ok c ->
  exists c', getCell g' i = Ok c' /\ c_state c' = c_state c /\ c_val c' = c_val c /\ c_occ c' = c_occ c.
Proof.
  intros H Hc. assert (K : forall hv, setHeuristicTime g j hv = Ok g' -> exists c', getCell g' i = Ok c' /\ c_state c' = c_state c /\ c_val c' = c_val c /\ c_occ c' = c_occ c).
  { intros hv K. rewrite (updCell_get _ _ _ _ i K). destruct (j =? i); [|eauto]. rewrite Hc. eexists. split; [reflexivity|]. auto. }
  unfold fmm_heur in H. destruct (fc_strat cfg); [injection H as <-; eauto| |];
    (apply bind_ok in H; destruct H as [d [_ H]]); [apply bind_ok in H; destruct H as [c2 [_ H]]|]; eapply K; exact H.
Qed.

(** writing a finite time (and a state other than OPEN) into a cell *)
Lemma FI_time g j r g' : FI g -> (0 <= r)%R -> (forall c, getCell g j = Ok c -> c_state c <> OPEN \/ In j init) -> setArrivalTime g j (XFin r : XR) = Ok g' -> FI g'.
Proof.
  intros [[A [B C]] D] Hr Hj H. split.
  - split; [eapply updCell_grid_ok; eauto|]. split; [eapply (set_times_ok g g' j r); eauto|eapply upd_reals_ok; eauto].
  - intros i c Hc. rewrite (updCell_get _ _ _ _ i H) in Hc. destruct (Z.eqb_spec j i) as [->|Hne]; [|exact (D i c Hc)].
    destruct (getCell g i) as [c0|] eqn:E; [|discriminate]. injection Hc as <-. specialize (Hj c0 eq_refl). cbn. split.
    + intros K1 K2. destruct Hj as [K|K]; [|contradiction]. exfalso. apply K. exact K1.
    + intros _. exists r. reflexivity.
Qed.

Lemma nb_FI m st j st' :
  FI (fs_g st) -> adjacent dims m j -> (exists r, times (fs_g st) m = Some r) ->
  (forall c, getCell (fs_g st) j = Ok c -> isOccupied c = false -> In j init -> c_state c = FROZEN) ->
  fmm_neighbor HO cfg st j = Ok st' -> FI (fs_g st').
Proof.
  intros HI Ha [rm Hm] Hsrc H. pose proof HI as [[A [B C]] D].
  unfold fmm_neighbor in H. apply bind_ok in H. destruct H as [cj [Hcj H]].
  destruct (fmstate_eqb (c_state cj) FROZEN || isOccupied cj) eqn:E0; [injection H as <-; exact HI|].
  apply orb_false_iff in E0. destruct E0 as [EF EO]. apply eqb_state_false in EF.
  apply bind_ok in H. destruct H as [t [Ht H]]. apply bind_ok in H. destruct H as [g1 [Hg1 H]]. apply bind_ok in H. destruct H as [c1 [Hc1 H]].
  pose proof (FI_heur _ _ _ HI Hg1) as HI1. destruct (FI_heur_cell _ _ _ _ _ Hg1 Hcj) as [c1' [K1 [K2 [K3 K4]]]].
  assert (c1' = c1) by congruence. subst c1'.
  pose proof (adjacent_range _ _ _ Ha) as Hjr. assert (Hjr' : 0 <= j < box_size dims) by (apply Hjr).
  assert (Hfr : free (fs_g st) j) by (exists cj; auto).
  assert (Hni : ~ In j init) by (intros K; apply EF; apply (Hsrc cj Hcj EO K)).
  rewrite (solveEikonal_X dims (fs_g st) j Hd2 Hlt A B C Hfr Hjr') in Ht. injection Ht as <-.
  destruct (fmstate_eqb (c_state c1) NARROW) eqn:EN.
  - apply eqb_state in EN. destruct (isTimeBetterThan _ (c_val c1)) eqn:EB.
    + apply bind_ok in H. destruct H as [g2 [Hg2 H]]. apply bind_ok in H. destruct H as [h2 [_ H]]. injection H as <-. cbn [fs_g].
      destruct (eik dims (slow (fs_g st) j) (times (fs_g st)) j) as [u|] eqn:Eu; cbn [ox] in *.
      2:{ exfalso. apply (nl_better_lt XR XR_laws) in EB. destruct (c_val c1); discriminate EB. }
      apply (FI_time g1 j u g2 HI1); [exact (eik_nonneg dims Hd2 (fs_g st) j u B C Hfr Hjr' Eu)| |exact Hg2].
      intros c Hc. left. assert (c = c1) by congruence. subst c. congruence.
    + injection H as <-. cbn [fs_g]. exact HI1.
  - apply eqb_state_false in EN. apply bind_ok in H. destruct H as [g2 [Hg2 H]]. apply bind_ok in H. destruct H as [g3 [Hg3 H]]. injection H as <-. cbn [fs_g].
    assert (EOp : c_state cj = OPEN) by (apply state_cases; congruence).
    pose proof (proj1 (D j cj Hcj) EOp Hni) as Ev.
    assert (EN' : times (fs_g st) j = None) by (unfold times, getArrivalTime; rewrite Hcj; cbn [bind]; rewrite Ev; reflexivity).
    destruct (eik dims (slow (fs_g st) j) (times (fs_g st)) j) as [u|] eqn:Eu.
    2:{ exfalso. unfold eik in Eu. rewrite EN' in Eu. unfold upw in Eu. destruct (somes (dmins dims (times (fs_g st)) j)) eqn:Es; [|discriminate].
        pose proof (somes_dmins_empty dims Hp (times (fs_g st)) j m Hjr' Es (adjacent_sym _ _ _ Ha)). congruence. }
    pose proof (eik_nonneg dims Hd2 (fs_g st) j u B C Hfr Hjr' Eu) as Hu. cbn [ox] in Hg3.
    destruct HI1 as [G1 D1]. pose proof (GIX_state dims g1 j NARROW g2 G1 Hg2) as G2.
    split.
    + destruct G2 as [A2 [B2 C2]]. split; [eapply updCell_grid_ok; eauto|]. split; [eapply (set_times_ok g2 g3 j u); eauto|eapply upd_reals_ok; eauto].
    + intros i c Hc. rewrite (updCell_get _ _ _ _ i Hg3), (updCell_get _ _ _ _ i Hg2) in Hc.
      destruct (Z.eqb_spec j i) as [->|Hne]; [|exact (D1 i c Hc)]. rewrite Hc1 in Hc. injection Hc as <-. cbn. split; [discriminate|]. intros _. exists u. reflexivity.
Qed.

Lemma frozen_stays st j st' i c : fmm_neighbor HO cfg st j = Ok st' -> getCell (fs_g st) i = Ok c ->
  exists c', getCell (fs_g st') i = Ok c' /\ isOccupied c' = isOccupied c /\ (c_state c = FROZEN -> c_state c' = FROZEN).
Proof.
  intros H Hc. pose proof (fmm_neighbor_frame (fun _ => True) HO _ _ _ _ H) as F. destruct F as [_ [_ [_ [_ [_ F]]]]]. destruct (F i c Hc) as [c' [A [B _]]].
  exists c'. split; [exact A|]. split; [unfold isOccupied; rewrite B; reflexivity|]. intros E.
  destruct (nb_states HO cfg _ _ _ H i c Hc) as [c2 [A2 [B2 _]]]. assert (c2 = c') by congruence. subst c2.
  destruct B2 as [B2|[-> [Ho _]]]; [congruence|]. unfold fmm_neighbor in H. rewrite Hc in H. cbn [bind] in H. rewrite E in H. cbn in H. injection H as <-. congruence.
Qed.

Lemma nbs_FI m : forall ns st st',
  FI (fs_g st) -> (forall j, In j ns -> adjacent dims m j) -> (exists c, getCell (fs_g st) m = Ok c /\ c_state c = FROZEN) ->
  (forall j c, In j ns -> getCell (fs_g st) j = Ok c -> isOccupied c = false -> In j init -> c_state c = FROZEN) ->
  foldM (fmm_neighbor HO cfg) ns st = Ok st' -> FI (fs_g st').
Proof.
  induction ns as [|j ns IH]; intros st st' HI Ha [cm [Hm Em]] Hs H; cbn [foldM] in H; [injection H as <-; exact HI|].
  apply bind_ok in H. destruct H as [s1 [H1 H2]].
  assert (HI1 : FI (fs_g s1)).
  { apply (nb_FI m st j s1 HI); [apply Ha; left; reflexivity| |intros c Hc Ho Hi; apply (Hs j c); [left; reflexivity|auto..]|exact H1].
    destruct (proj2 (proj2 HI m cm Hm)) as [r Er]; [left; congruence|]. exists r. unfold times, getArrivalTime. rewrite Hm. cbn [bind]. rewrite Er. reflexivity. }
  apply (IH s1 st' HI1); [intros k Hk; apply Ha; right; exact Hk| |  |exact H2].
  - destruct (frozen_stays _ _ _ _ _ H1 Hm) as [c' [A [_ B]]]. exists c'. auto.
  - intros k c Hk Hc Ho Hi. pose proof (getCell_range _ _ _ Hc) as Hr.
    assert (Hkr : 0 <= k < box_size dims). { destruct HI1 as [[[_ <-] _] _]. exact Hr. }
    destruct (getCell_in dims (fs_g st) k (proj1 (proj1 HI)) Hkr) as [c0 Hc0]. destruct (frozen_stays _ _ _ _ _ H1 Hc0) as [c' [A [B C]]].
    assert (c' = c) by congruence. subst c'. apply C. apply (Hs k c0); [right; exact Hk|exact Hc0|congruence|exact Hi].
Qed.

Lemma step_FI st log m st' :
  SInv HO HL dims init (fs_g st) (fs_h st) log -> quiet HO init (fs_g st) log (fs_h st) -> FI (fs_g st) ->
  fmm_step HO cfg st = Ok (Some (m, st')) -> FI (fs_g st').
Proof.
  intros I Q HI Hs. unfold fmm_step in Hs. destruct (hpop HO (key (fs_g st)) (fs_h st)) as [[m' h1]|] eqn:Hpop; [|discriminate].
  apply bind_ok in Hs. destruct Hs as [ns [Hns Hs]]. apply bind_ok in Hs. destruct Hs as [g1 [Hg1 Hs]]. apply bind_ok in Hs. destruct Hs as [st2 [Hf Hs]].
  injection Hs as -> ->. pose proof I as [Ig Iw Ind Ir Is If In_].
  destruct (hl_pop HO HL _ _ _ _ Iw Hpop) as [_ Hpm].
  assert (Hmh : In m (helems HO (fs_h st))) by (eapply Permutation_in; [symmetry; exact Hpm|left; reflexivity]).
  assert (Hm : 0 <= m < box_size dims) by (apply Ir, in_or_app; left; exact Hmh).
  rewrite (proj1 Ig), getNeighbors_eq in Hns by assumption. injection Hns as <-.
  destruct (getCell_in dims (fs_g st) m Ig Hm) as [cm Hcm].
  assert (HfinM : fin cm).
  { apply (proj2 (proj2 HI m cm Hcm)). destruct (in_dec Z.eq_dec m init) as [K|K]; [right; exact K|left].
    assert (c_state cm = NARROW) by (apply (In_ m cm Hcm); auto). congruence. }
  assert (HI1 : FI g1).
  { split; [eapply GIX_state; [apply (proj1 HI)|exact Hg1]|]. intros i c Hc. rewrite (updCell_get _ _ _ _ i Hg1) in Hc.
    destruct (Z.eqb_spec m i) as [<-|Hne]; [|exact (proj2 HI i c Hc)]. rewrite Hcm in Hc. injection Hc as <-. cbn. split; [discriminate|]. intros _. exact HfinM. }
  apply (nbs_FI m (nbrs dims m) (mkFst g1 h1) st' HI1).
  - intros j Hj. apply nbrs_spec in Hj; auto.
  - cbn [fs_g]. rewrite (updCell_get _ _ _ _ m Hg1). rewrite Z.eqb_refl, Hcm. eexists. split; reflexivity.
  - cbn [fs_g]. intros j c Hj Hc Ho Hi. apply nbrs_spec in Hj; [|exact Hp|exact Hm].
    rewrite (updCell_get _ _ _ _ j Hg1) in Hc. destruct (Z.eqb_spec m j) as [<-|Hne]; [rewrite Hcm in Hc; injection Hc as <-; reflexivity|].
    apply (If j c Hc). destruct Q as [Q|[s [Hinit Q]]].
    + exfalso. apply (Q j Hi). exists c. auto.
    + rewrite Hinit in Hi. destruct Hi as [<-|[]]. destruct Q as [Q|[-> Q]]; [exact Q|exfalso].
      assert (Hin : In m [s]) by (eapply Permutation_in; [exact Q|exact Hmh]). destruct Hin as [<-|[]]. congruence.
  - exact Hf.
Qed.

Lemma loop_FI goal : forall fuel st log st' log',
  SInv HO HL dims init (fs_g st) (fs_h st) log -> quiet HO init (fs_g st) log (fs_h st) -> FI (fs_g st) ->
  fmm_loop HO fuel cfg goal st log = Ok (st', log') -> FI (fs_g st').
Proof.
  induction fuel as [|k IH]; intros st log st' log' I Q HI H; cbn [fmm_loop] in H; [discriminate|].
  destruct (quiet_step XR_laws HO HL dims Hd2 Hlt cfg init Hheur st log I Q) as [[He Hs]|[m [s1 [Hs [I1 Q1]]]]]; rewrite Hs in H; cbn [bind] in H.
  - injection H as <- <-. exact HI.
  - pose proof (step_FI st log m s1 I Q HI Hs) as HI1.
    destruct (Z.eqb_spec m goal) as [->|]; [injection H as <- <-; exact HI1|]. exact (IH _ _ _ _ I1 Q1 HI1 H).
Qed.

Lemma run_FI goal fuel (g : grid XR) st log :
  grid_ok dims g -> reals_ok g -> (forall i c, getCell g i = Ok c -> c_val c = XPInf /\ c_state c = OPEN) ->
  NoDup init -> (forall i, In i init -> 0 <= i < box_size dims) ->
  (forall i, In i init -> ~ free g i) \/ (exists s, init = [s]) ->
  fmm_run HO fuel cfg goal init g (hempty HO) = Ok (st, log) -> FI (fs_g st).
Proof.
  intros Hg Hre Hc Hnd Hr Hq H. unfold fmm_run in H. apply bind_ok in H. destruct H as [s0 [H1 H2]].
  destruct (quiet_init HO HL dims cfg init Hheur g Hg Hnd Hr (fun i c K => proj2 (Hc i c K)) Hq) as [s0' [A [B C]]]. assert (s0' = s0) by congruence. subst s0'.
  refine (loop_FI goal fuel s0 [] st log B C _ H2). clear H2.
  (* after the initial points: FI with the processed ones as sources *)
  assert (K : forall l s, foldM (fmm_init1 HO cfg) l s = Ok s0 -> incl l init ->
    GIX dims (fs_g s) -> (forall i c, getCell (fs_g s) i = Ok c -> c_state c = OPEN /\ (~ In i init -> c_val c = XPInf) /\ (In i init -> ~ In i l -> fin c)) ->
    FI (fs_g s0)).
  { induction l as [|i l IH]; intros s Hf Hin HG HD; cbn [foldM] in Hf.
    - injection Hf as <-. split; [exact HG|]. intros i c Hci. destruct (HD i c Hci) as [E1 [E2 E3]]. split; [auto|]. intros [K|K]; [contradiction|apply E3; auto].
    - apply bind_ok in Hf. destruct Hf as [s1 [Hs1 Hf]]. unfold fmm_init1 in Hs1. apply bind_ok in Hs1. destruct Hs1 as [g1 [Hg1 Hs1]].
      apply bind_ok in Hs1. destruct Hs1 as [g2 [Hg2 Hs1]]. injection Hs1 as <-.
      pose proof (GIX_src dims _ _ _ HG Hg1) as HG1.
      assert (HG2 : GIX dims g2).
      { destruct HG1 as [A1 [B1 C1]]. assert (KK : forall hv, setHeuristicTime g1 i hv = Ok g2 -> GIX dims g2).
        { intros hv KK. split; [eapply updCell_grid_ok; eauto|]. split; [eapply upd_times_ok; eauto|eapply upd_reals_ok; eauto]. }
        unfold fmm_heur in Hg2. destruct (fc_strat cfg); [injection Hg2 as <-; split; auto| |];
          (apply bind_ok in Hg2; destruct Hg2 as [d [_ Hg2]]); [apply bind_ok in Hg2; destruct Hg2 as [c2 [_ Hg2]]|]; eapply KK; exact Hg2. }
      apply (IH _ Hf); [intros x Hx; apply Hin; right; exact Hx|exact HG2|]. cbn [fs_g]. intros k c Hk.
      pose proof (getCell_range _ _ _ Hk) as Hkr. assert (Hkr' : 0 <= k < box_size dims) by (destruct HG2 as [[_ <-] _]; exact Hkr).
      destruct (getCell_in dims g1 k (proj1 HG1) Hkr') as [c1 Hc1]. destruct (FI_heur_cell _ _ _ _ _ Hg2 Hc1) as [c2 [J1 [J2 [J3 _]]]].
      assert (c2 = c) by congruence. subst c2. rewrite J2. unfold fin. rewrite J3. clear J2 J3 J1.
      rewrite (updCell_get _ _ _ _ k Hg1) in Hc1. destruct (Z.eqb_spec i k) as [->|Hne].
      + destruct (getCell (fs_g s) k) as [c0|] eqn:E; [|discriminate]. injection Hc1 as <-. destruct (HD k c0 E) as [E1 _]. split; [exact E1|].
        split; [intros Q; exfalso; apply Q, Hin; left; reflexivity|]. intros _ _. exists 0%R. reflexivity.
      + destruct (HD k c1 Hc1) as [E1 [E2 E3]]. split; [exact E1|]. split; [exact E2|]. intros Q1 Q2. apply E3; [exact Q1|]. intros [Q|Q]; congruence. }
  apply (K init (mkFst g (hempty HO)) H1); [intros x Hx; exact Hx| |].
  - split; [exact Hg|]. split; [|exact Hre]. intros i c Hi. left. apply (Hc i c Hi).
  - cbn [fs_g]. intros i c Hi. destruct (Hc i c Hi) as [E1 E2]. split; [exact E2|]. split; [auto|]. intros Q1 Q2. contradiction.
Qed.
End Star.

(** ** the heuristic values of the marked cells, for any arithmetic *)
Section HV.
Context {N : Num} (L : NumLaws N).
Variable HO : HeapOps N.
Variable HL : HeapLaws HO.
Variable dims : list Z.
Hypothesis Hd2 : dims2 dims.
Hypothesis Hlt : 2 * box_size dims <= 4294967296.
Variable cfg : fmm_cfg (N := N).
Variable init : list Z.
Hypothesis Hheur : heur_ok dims cfg.
Hypothesis Hstrat : fc_strat cfg <> NOHEUR.

Definition hvc (i : Z) (o h : N) : Prop :=
  exists d, getPrecomputedDistance cfg (mk_shape dims) i = Ok d /\ h = match fc_strat cfg with TIME => ndiv d o | _ => d end.
Definition HV (g : grid N) (todo : list Z) : Prop :=
  grid_ok dims g /\ forall i c, getCell g i = Ok c -> c_state c <> OPEN \/ (In i init /\ ~ In i todo) -> hvc i (c_occ c) (c_h c).

Lemma heur_sets g j g' : grid_ok dims g -> fmm_heur cfg g j = Ok g' ->
  grid_ok dims g' /\ (forall i, i <> j -> getCell g' i = getCell g i) /\
  exists c c', getCell g j = Ok c /\ getCell g' j = Ok c' /\ c_state c' = c_state c /\ hvc j (c_occ c') (c_h c').
Proof.
  intros Hg H. unfold fmm_heur in H. rewrite (proj1 Hg) in H.
  assert (K : forall d hv, getPrecomputedDistance cfg (mk_shape dims) j = Ok d -> (forall c, getCell g j = Ok c -> hv = match fc_strat cfg with TIME => ndiv d (c_occ c) | _ => d end) ->
     setHeuristicTime g j hv = Ok g' -> grid_ok dims g' /\ (forall i, i <> j -> getCell g' i = getCell g i) /\
     exists c c', getCell g j = Ok c /\ getCell g' j = Ok c' /\ c_state c' = c_state c /\ hvc j (c_occ c') (c_h c')).
  { intros d hv Hd Hhv K. split; [eapply updCell_grid_ok; eauto|]. split.
    - intros i Hi. rewrite (updCell_get _ _ _ _ i K). destruct (Z.eqb_spec j i); [congruence|reflexivity].
    - pose proof (updCell_get _ _ _ _ j K) as KK. rewrite Z.eqb_refl in KK.
      destruct (getCell g j) as [c|] eqn:E. 2:{ unfold setHeuristicTime, updCell in K. rewrite E in K. discriminate. }
      exists c. eexists. split; [reflexivity|]. split; [exact KK|]. split; [reflexivity|]. exists d. split; [exact Hd|]. cbn. apply Hhv. reflexivity. }
  destruct (fc_strat cfg) eqn:Es; [congruence| |]; apply bind_ok in H; destruct H as [d [Hd H]].
  - apply bind_ok in H. destruct H as [c [Hc H]]. apply (K d _ Hd) in H; [exact H|]. intros c' Hc'. assert (c' = c) by congruence. subst. reflexivity.
  - apply (K d _ Hd) in H; [exact H|]. reflexivity.
Qed.

Lemma HV_cell g g' j f : HV g [] -> (forall c, c_h (f c) = c_h c /\ c_occ (f c) = c_occ c) -> (forall c, getCell g j = Ok c -> c_state c <> OPEN \/ In j init \/ hvc j (c_occ c) (c_h c)) ->
  updCell g j f = Ok g' -> HV g' [].
Proof.
  intros [Hg D] Hf Hj H. split; [eapply updCell_grid_ok; eauto|]. intros i c Hc Hs. rewrite (updCell_get _ _ _ _ i H) in Hc.
  destruct (Z.eqb_spec j i) as [->|Hne]; [|exact (D i c Hc Hs)]. destruct (getCell g i) as [c0|] eqn:E; [|discriminate]. injection Hc as <-.
  destruct (Hf c0) as [-> ->]. destruct (Hj c0 eq_refl) as [K|[K|K]]; [apply (D i c0 E); auto|apply (D i c0 E); right; split; [exact K|intros []]|exact K].
Qed.

Lemma nb_HV st j st' : HV (fs_g st) [] -> fmm_neighbor HO cfg st j = Ok st' -> HV (fs_g st') [].
Proof.
  intros HI H. unfold fmm_neighbor in H. apply bind_ok in H. destruct H as [cj [Hcj H]].
  destruct (fmstate_eqb (c_state cj) FROZEN || isOccupied cj) eqn:E0; [injection H as <-; exact HI|].
  apply bind_ok in H. destruct H as [t [Ht H]]. apply bind_ok in H. destruct H as [g1 [Hg1 H]]. apply bind_ok in H. destruct H as [c1 [Hc1 H]].
  destruct (heur_sets _ _ _ (proj1 HI) Hg1) as [G1 [Eo [c0 [c1' [K1 [K2 [K3 K4]]]]]]]. assert (c1' = c1) by congruence. subst c1'.
  assert (HI1 : HV g1 []).
  { split; [exact G1|]. intros i c Hc Hs. destruct (Z.eq_dec i j) as [->|Hne]; [assert (c = c1) by congruence; subst; exact K4|]. rewrite Eo in Hc by exact Hne. exact (proj2 HI i c Hc Hs). }
  destruct (fmstate_eqb (c_state c1) NARROW) eqn:EN.
  - destruct (isTimeBetterThan t (c_val c1)).
    + apply bind_ok in H. destruct H as [g2 [Hg2 H]]. apply bind_ok in H. destruct H as [h2 [_ H]]. injection H as <-. cbn [fs_g].
      refine (HV_cell g1 g2 j _ HI1 _ _ Hg2); [intros c; split; reflexivity|]. intros c Hc. right; right. assert (c = c1) by congruence. subst; exact K4.
    + injection H as <-. cbn [fs_g]. exact HI1.
  - apply bind_ok in H. destruct H as [g2 [Hg2 H]]. apply bind_ok in H. destruct H as [g3 [Hg3 H]]. injection H as <-. cbn [fs_g].
    assert (HI2 : HV g2 []).
    { refine (HV_cell g1 g2 j _ HI1 _ _ Hg2); [intros c; split; reflexivity|]. intros c Hc. right; right. assert (c = c1) by congruence. subst; exact K4. }
    refine (HV_cell g2 g3 j _ HI2 _ _ Hg3); [intros c; split; reflexivity|]. intros c Hc. left. rewrite (updCell_get _ _ _ _ j Hg2), Z.eqb_refl, Hc1 in Hc. injection Hc as <-. discriminate.
Qed.

Lemma step_HV st log m st' :
  SInv HO HL dims init (fs_g st) (fs_h st) log -> HV (fs_g st) [] -> fmm_step HO cfg st = Ok (Some (m, st')) -> HV (fs_g st') [].
Proof.
  intros I HI Hs. unfold fmm_step in Hs. destruct (hpop HO (key (fs_g st)) (fs_h st)) as [[m' h1]|] eqn:Hpop; [|discriminate].
  apply bind_ok in Hs. destruct Hs as [ns [Hns Hs]]. apply bind_ok in Hs. destruct Hs as [g1 [Hg1 Hs]]. apply bind_ok in Hs. destruct Hs as [st2 [Hf Hs]].
  injection Hs as -> ->. pose proof I as [Ig Iw Ind Ir Is If In_].
  destruct (hl_pop HO HL _ _ _ _ Iw Hpop) as [_ Hpm].
  assert (Hmh : In m (helems HO (fs_h st))) by (eapply Permutation_in; [symmetry; exact Hpm|left; reflexivity]).
  assert (HI1 : HV g1 []).
  { refine (HV_cell (fs_g st) g1 m _ HI _ _ Hg1); [intros c; split; reflexivity|]. intros c Hc.
    destruct (in_dec Z.eq_dec m init) as [K|K]; [right; left; exact K|left]. assert (c_state c = NARROW) by (apply (In_ m c Hc); auto). congruence. }
  refine (foldM_inv_partial (fun s => HV (fs_g s) []) _ _ _ _ _ _ Hf); [exact HI1|]. intros s x s1 _ Hx E. eapply nb_HV; eauto.
Qed.

Lemma loop_HV goal : forall fuel st log st' log',
  SInv HO HL dims init (fs_g st) (fs_h st) log -> quiet HO init (fs_g st) log (fs_h st) -> HV (fs_g st) [] ->
  fmm_loop HO fuel cfg goal st log = Ok (st', log') -> HV (fs_g st') [].
Proof.
  induction fuel as [|k IH]; intros st log st' log' I Q HI H; cbn [fmm_loop] in H; [discriminate|].
  destruct (quiet_step L HO HL dims Hd2 Hlt cfg init Hheur st log I Q) as [[He Hs]|[m [s1 [Hs [I1 Q1]]]]]; rewrite Hs in H; cbn [bind] in H.
  - injection H as <- <-. exact HI.
  - pose proof (step_HV st log m s1 I HI Hs) as HI1.
    destruct (Z.eqb_spec m goal) as [->|]; [injection H as <- <-; exact HI1|]. exact (IH _ _ _ _ I1 Q1 HI1 H).
Qed.

Lemma run_HV goal fuel (g : grid N) st log :
  grid_ok dims g -> (forall i c, getCell g i = Ok c -> c_state c = OPEN) ->
  NoDup init -> (forall i, In i init -> 0 <= i < box_size dims) ->
  (forall i, In i init -> ~ free g i) \/ (exists s, init = [s]) ->
  fmm_run HO fuel cfg goal init g (hempty HO) = Ok (st, log) -> HV (fs_g st) [].
Proof.
  intros Hg Hc Hnd Hr Hq H. unfold fmm_run in H. apply bind_ok in H. destruct H as [s0 [H1 H2]].
  destruct (quiet_init HO HL dims cfg init Hheur g Hg Hnd Hr Hc Hq) as [s0' [A [B C]]]. assert (s0' = s0) by congruence. subst s0'.
  assert (HI : HV (fs_g s0) []).
  { assert (K : forall l s, foldM (fmm_init1 HO cfg) l s = Ok s0 -> incl l init -> (forall i c, getCell (fs_g s) i = Ok c -> c_state c = OPEN) -> HV (fs_g s) l -> HV (fs_g s0) []).
    { induction l as [|i l IH]; intros s Hf Hin Ho HI; cbn [foldM] in Hf; [injection Hf as <-; exact HI|].
      apply bind_ok in Hf. destruct Hf as [s1 [Hs1 Hf]]. unfold fmm_init1 in Hs1. apply bind_ok in Hs1. destruct Hs1 as [g1 [Hg1 Hs1]].
      apply bind_ok in Hs1. destruct Hs1 as [g2 [Hg2 Hs1]]. injection Hs1 as <-. destruct HI as [HG HD].
      assert (HG1 : grid_ok dims g1) by (eapply updCell_grid_ok; eauto).
      destruct (heur_sets _ _ _ HG1 Hg2) as [G2 [Eo [c0 [c1 [K1 [K2 [K3 K4]]]]]]].
      assert (E1 : forall k, k <> i -> getCell g1 k = getCell (fs_g s) k) by (intros k Hk; rewrite (updCell_get _ _ _ _ k Hg1); destruct (Z.eqb_spec i k); [congruence|reflexivity]).
      assert (E2 : c_state c0 = OPEN).
      { rewrite (updCell_get _ _ _ _ i Hg1), Z.eqb_refl in K1. destruct (getCell (fs_g s) i) as [c|] eqn:E; [|discriminate]. injection K1 as <-. exact (Ho i c E). }
      apply (IH _ Hf); [intros x Hx; apply Hin; right; exact Hx| |]; cbn [fs_g].
      - intros k c Hk. destruct (Z.eq_dec k i) as [->|Hne]; [assert (c = c1) by congruence; subst; congruence|]. rewrite Eo, E1 in Hk by exact Hne. exact (Ho k c Hk).
      - split; [exact G2|]. intros k c Hk Hs. destruct (Z.eq_dec k i) as [->|Hne]; [assert (c = c1) by congruence; subst; exact K4|].
        rewrite Eo, E1 in Hk by exact Hne. apply (HD k c Hk). destruct Hs as [Hs|[Hs1 Hs2]]; [left; exact Hs|right; split; [exact Hs1|]]. intros [Q|Q]; congruence. }
    apply (K init (mkFst g (hempty HO)) H1); [intros x Hx; exact Hx|exact Hc|]. split; [exact Hg|]. cbn [fs_g]. intros i c Hi [Q|[Q1 Q2]]; [|contradiction]. exfalso. apply Q. exact (Hc i c Hi). }
  exact (loop_HV goal fuel s0 [] st log B C HI H2).
Qed.
End HV.

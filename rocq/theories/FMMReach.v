(** FMMReach.v - which cells a complete FMM run freezes, for every arithmetic. *)
From Coq Require Import Permutation.
From Verif Require Import Base BaseFacts Num NumLaws Grid GridFacts GridMore GridUpd Spec Obs Eikonal FMMModel HeapLaws Frame FMMStruct.

Section Reach.
Context {N : Num}.
Variable L : NumLaws N.
Variable HO : HeapOps N.
Variable HL : HeapLaws HO.
Variable dims : list Z.
Hypothesis Hd2 : dims2 dims.
Hypothesis Hlt : 2 * box_size dims <= 4294967296.
Variable cfg : fmm_cfg (N := N).
Variable init : list Z.
Hypothesis Hheur : heur_ok dims cfg.
Let Hp : proper dims := dims2_proper' dims Hd2.

(** what one neighbour visit does to the states *)
Lemma nb_states st j st' :
  fmm_neighbor HO cfg st j = Ok st' ->
  forall i c, getCell (fs_g st) i = Ok c -> exists c', getCell (fs_g st') i = Ok c' /\
    (c_state c' = c_state c \/ i = j /\ isOccupied c = false /\ c_state c' = NARROW) /\
    (i = j -> isOccupied c = false -> c_state c' <> OPEN).
Proof.
  intros H i c Hc. unfold fmm_neighbor in H. apply bind_ok in H. destruct H as [cj [Hcj H]].
  destruct (fmstate_eqb (c_state cj) FROZEN || isOccupied cj) eqn:E0.
  { injection H as <-. exists c. split; [exact Hc|]. split; [left; reflexivity|]. intros -> Ho. assert (cj = c) by congruence. subst cj.
    rewrite Ho, orb_false_r in E0. apply eqb_state in E0. congruence. }
  apply orb_false_iff in E0. destruct E0 as [EF EO].
  apply bind_ok in H. destruct H as [t [_ H]]. apply bind_ok in H. destruct H as [g1 [Hg1 H]]. apply bind_ok in H. destruct H as [c1 [Hc1 H]].
  assert (HG : forall i c, getCell (fs_g st) i = Ok c -> exists c', getCell g1 i = Ok c' /\ c_state c' = c_state c).
  { clear - Hg1. intros i c Hc. unfold fmm_heur in Hg1.
    assert (K : forall hv, setHeuristicTime (fs_g st) j hv = Ok g1 -> exists c', getCell g1 i = Ok c' /\ c_state c' = c_state c).
    { intros hv K. rewrite (updCell_get _ _ _ _ i K). destruct (j =? i); [|eauto]. rewrite Hc. eexists. split; reflexivity. }
    destruct (fc_strat cfg); [injection Hg1 as <-; eauto| |];
      (apply bind_ok in Hg1; destruct Hg1 as [d [_ Hg1]]); [apply bind_ok in Hg1; destruct Hg1 as [c2 [_ Hg1]]|]; eapply K; exact Hg1. }
  destruct (HG i c Hc) as [ci [Hci Esi]].
  assert (Hj : i = j -> ci = c1 /\ cj = c) by (intros ->; split; congruence).
  destruct (fmstate_eqb (c_state c1) NARROW) eqn:EN.
  - apply eqb_state in EN.
    destruct (isTimeBetterThan t (c_val c1)).
    + apply bind_ok in H. destruct H as [g2 [Hg2 H]]. apply bind_ok in H. destruct H as [h2 [_ H]]. injection H as <-. cbn [fs_g].
      rewrite (updCell_get _ _ _ _ i Hg2), Hci. destruct (Z.eqb_spec j i) as [->|Hne].
      * eexists. split; [reflexivity|]. cbn. split; [left; exact Esi|]. intros _ _. destruct (Hj eq_refl) as [-> _]. congruence.
      * eexists. split; [reflexivity|]. split; [left; exact Esi|]. congruence.
    + injection H as <-. cbn [fs_g]. exists ci. split; [exact Hci|]. split; [left; exact Esi|]. intros Eij _. destruct (Hj Eij) as [-> _]. congruence.
  - apply bind_ok in H. destruct H as [g2 [Hg2 H]]. apply bind_ok in H. destruct H as [g3 [Hg3 H]]. injection H as <-. cbn [fs_g].
    rewrite (updCell_get _ _ _ _ i Hg3), (updCell_get _ _ _ _ i Hg2), Hci. destruct (Z.eqb_spec j i) as [->|Hne].
    + eexists. split; [reflexivity|]. cbn. split; [|discriminate]. right. destruct (Hj eq_refl) as [_ <-]. auto.
    + eexists. split; [reflexivity|]. split; [left; exact Esi|]. congruence.
Qed.

Lemma nbs_states ns : forall st st', foldM (fmm_neighbor HO cfg) ns st = Ok st' ->
  forall i c, getCell (fs_g st) i = Ok c -> exists c', getCell (fs_g st') i = Ok c' /\ c_occ c' = c_occ c /\
    (c_state c' = c_state c \/ In i ns /\ isOccupied c = false /\ c_state c' = NARROW) /\
    (In i ns -> isOccupied c = false -> c_state c' <> OPEN).
Proof.
  induction ns as [|j ns IH]; intros st st' H i c Hc; cbn [foldM] in H.
  { injection H as <-. exists c. repeat (split; [auto|]). intros []. }
  apply bind_ok in H. destruct H as [s1 [H1 H2]].
  destruct (nb_states _ _ _ H1 i c Hc) as [c1 [A1 [A2 A3]]].
  pose proof (fmm_neighbor_frame (fun _ => True) HO _ _ _ _ H1) as F1.
  destruct F1 as [_ [_ [_ [_ [_ F1]]]]]. destruct (F1 i c Hc) as [c1' [B1 [B2 _]]]. assert (c1' = c1) by congruence. subst c1'.
  destruct (IH _ _ H2 i c1 A1) as [c2 [C1 [C2 [C3 C4]]]]. exists c2. split; [exact C1|]. split; [congruence|].
  assert (EO : isOccupied c1 = isOccupied c) by (unfold isOccupied; rewrite B2; reflexivity). rewrite EO in C3, C4.
  split.
  - destruct C3 as [C3|[C3 [C5 C6]]]; [|right; split; [right; exact C3|auto]].
    destruct A2 as [A2|[A2 [A4 A5]]]; [left; congruence|right; subst; split; [left; reflexivity|split; [exact A4|congruence]]].
  - intros [->|Hi] Ho; [|auto]. specialize (A3 eq_refl Ho). destruct C3 as [C3|[_ [_ C6]]]; congruence.
Qed.

(** everything marked is connected to a source; nothing next to a popped cell is forgotten *)
Definition RI (g0 g : grid N) (h : heap HO) (log : list Z) : Prop :=
  (forall i, In i (helems HO h ++ log) -> reachable dims (fun k => In k init) (free g0) i) /\
  (forall i j, In i log -> adjacent dims i j -> free g0 j -> In j (helems HO h ++ log)).

Lemma free_frame (g0 g : grid N) i : frame (fun _ => True) g0 g -> (free g0 i <-> free g i).
Proof.
  intros H. split; intros [c [Hc Ho]].
  - destruct H as [_ [_ [_ [_ [_ H]]]]]. destruct (H i c Hc) as [c' [A [B _]]]. exists c'. split; [exact A|]. unfold isOccupied in *. rewrite B. exact Ho.
  - eapply frame_free_inv; [exact H|]. exists c. auto.
Qed.

Lemma RI_step (g0 : grid N) st log m st' :
  SInv HO HL dims init (fs_g st) (fs_h st) log -> frame (fun _ => True) g0 (fs_g st) -> RI g0 (fs_g st) (fs_h st) log ->
  fmm_step HO cfg st = Ok (Some (m, st')) -> SInv HO HL dims init (fs_g st') (fs_h st') (m :: log) ->
  RI g0 (fs_g st') (fs_h st') (m :: log) /\ frame (fun _ => True) g0 (fs_g st').
Proof.
  intros I F [R1 R2] Hs I'. pose proof (fmm_step_frame (fun _ => True) HO _ _ _ Hs) as F'. cbn in F'.
  unfold fmm_step in Hs. destruct (hpop HO (key (fs_g st)) (fs_h st)) as [[m' h1]|] eqn:Hpop; [|discriminate].
  apply bind_ok in Hs. destruct Hs as [ns [Hns Hs]]. apply bind_ok in Hs. destruct Hs as [g1 [Hg1 Hs]]. apply bind_ok in Hs. destruct Hs as [st2 [Hf Hs]].
  injection Hs as -> ->. pose proof I as [Ig Iw Ind Ir Is If In_].
  destruct (hl_pop HO HL _ _ _ _ Iw Hpop) as [_ Hpm].
  assert (Hmh : In m (helems HO (fs_h st))) by (eapply Permutation_in; [symmetry; exact Hpm|left; reflexivity]).
  assert (Hm : 0 <= m < box_size dims) by (apply Ir, in_or_app; left; exact Hmh).
  rewrite (proj1 Ig), getNeighbors_eq in Hns by assumption. injection Hns as <-.
  pose proof (SInv_pop HO HL dims init _ _ _ _ _ _ I Hpop Hg1) as I1.
  assert (Rm : reachable dims (fun k => In k init) (free g0) m) by (apply R1, in_or_app; left; exact Hmh).
  assert (FO : forall i c, getCell (fs_g st) i = Ok c -> exists c1, getCell g1 i = Ok c1 /\ c_occ c1 = c_occ c).
  { intros i c Hc. rewrite (updCell_get _ _ _ _ i Hg1). destruct (m =? i); [rewrite Hc|]; eauto. }
  pose proof (nbs_states _ _ _ Hf) as NS. cbn [fs_g] in NS.
  split; [|eapply frame_trans; eauto]. split.
  - intros i Hi. destruct (in_dec Z.eq_dec i (helems HO (fs_h st) ++ log)) as [Hin|Hnin]; [exact (R1 i Hin)|].
    apply in_app_or in Hi. destruct Hi as [Hi|[<-|Hi]]; [|exact Rm|exfalso; apply Hnin, in_or_app; right; exact Hi].
    assert (Hr : 0 <= i < box_size dims) by (apply (si_rng _ _ _ _ _ _ _ I'), in_or_app; left; exact Hi).
    assert (Hni : ~ In i init) by (intros K; apply Hnin, Is, K).
    destruct (getCell_in dims g1 i (si_grid _ _ _ _ _ _ _ I1) Hr) as [c1 Hc1].
    destruct (NS i c1 Hc1) as [c2 [A1 [A2 [A3 _]]]].
    assert (EN : c_state c2 = NARROW) by (apply (si_narrow _ _ _ _ _ _ _ I' i c2 A1); auto).
    destruct A3 as [A3|[A3 [A4 _]]].
    + exfalso. assert (K : c_state c1 = NARROW) by congruence. apply (si_narrow _ _ _ _ _ _ _ I1 i c1 Hc1) in K. destruct K as [K _].
      apply Hnin, in_or_app. left. eapply Permutation_in; [symmetry; exact Hpm|right; exact K].
    + apply nbrs_spec in A3; [|exact Hp|exact Hm]. eapply reach_step; [exact Rm|exact A3|].
      destruct (getCell_in dims (fs_g st) i Ig Hr) as [c Hc]. destruct (FO i c Hc) as [c1' [K1 K2]]. assert (c1' = c1) by congruence. subst c1'.
      apply (free_frame g0 (fs_g st) i F). exists c. split; [exact Hc|]. unfold isOccupied in *. rewrite <- K2. exact A4.
  - intros i j Hi Ha Hfj.
    assert (Hr : 0 <= j < box_size dims) by (apply (adjacent_range _ _ _ Ha)).
    destruct (getCell_in dims g1 j (si_grid _ _ _ _ _ _ _ I1) Hr) as [c1 Hc1]. destruct (NS j c1 Hc1) as [c2 [A1 [A2 [A3 A4]]]].
    assert (Hno : c_state c2 <> OPEN \/ In j (helems HO (fs_h st) ++ log)).
    { destruct Hi as [<-|Hi]; [left|right; eapply R2; eauto]. apply A4; [apply nbrs_spec; auto|].
      apply (free_frame g0 (fs_g st) j F) in Hfj. destruct Hfj as [c [Hc Ho]]. destruct (FO j c Hc) as [c1' [K1 K2]].
      assert (c1' = c1) by congruence. subst c1'. unfold isOccupied in *. rewrite K2. exact Ho. }
    destruct (in_dec Z.eq_dec j (helems HO (fs_h st') ++ m :: log)) as [|Hn]; [assumption|exfalso].
    assert (Hni : ~ In j init) by (intros K; apply Hn, (si_src _ _ _ _ _ _ _ I'), K).
    assert (EO : c_state c2 = OPEN).
    { apply state_cases; intros K.
      - apply (si_frozen _ _ _ _ _ _ _ I' j c2 A1) in K. apply Hn, in_or_app. right; exact K.
      - apply (si_narrow _ _ _ _ _ _ _ I' j c2 A1) in K. apply Hn, in_or_app. left; apply K. }
    destruct Hno as [Hno|Hin]; [contradiction|].
    destruct A3 as [A3|[_ [_ A3]]]; [|congruence].
    assert (E1 : c_state c1 = OPEN) by congruence.
    apply in_app_or in Hin. destruct Hin as [Hin|Hin].
    + apply (Permutation_in _ Hpm) in Hin. destruct Hin as [<-|Hin]; [apply Hn, in_or_app; right; left; reflexivity|].
      assert (K : c_state c1 = NARROW) by (apply (si_narrow _ _ _ _ _ _ _ I1 j c1 Hc1); auto). congruence.
    + assert (K : c_state c1 = FROZEN) by (apply (si_frozen _ _ _ _ _ _ _ I1 j c1 Hc1); right; exact Hin). congruence.
Qed.

Lemma RI_loop (g0 : grid N) goal : forall fuel st log st' log',
  SInv HO HL dims init (fs_g st) (fs_h st) log -> quiet HO init (fs_g st) log (fs_h st) ->
  frame (fun _ => True) g0 (fs_g st) -> RI g0 (fs_g st) (fs_h st) log ->
  fmm_loop HO fuel cfg goal st log = Ok (st', log') ->
  SInv HO HL dims init (fs_g st') (fs_h st') log' /\ RI g0 (fs_g st') (fs_h st') log' /\ frame (fun _ => True) g0 (fs_g st') /\
  (helems HO (fs_h st') = [] \/ exists r, log' = goal :: r).
Proof.
  induction fuel as [|k IH]; intros st log st' log' I Q F R H; cbn [fmm_loop] in H; [discriminate|].
  destruct (quiet_step L HO HL dims Hd2 Hlt cfg init Hheur st log I Q) as [[He Hs]|[m [s1 [Hs [I1 Q1]]]]]; rewrite Hs in H; cbn [bind] in H.
  - injection H as <- <-. auto 10.
  - destruct (RI_step g0 st log m s1 I F R Hs I1) as [R1 F1].
    destruct (Z.eqb_spec m goal) as [->|]; [injection H as <- <-; eauto 10|]. exact (IH _ _ _ _ I1 Q1 F1 R1 H).
Qed.

(** a run from a clean grid *)
Lemma quiet_run goal fuel g st log :
  grid_ok dims g -> NoDup init -> (forall i, In i init -> 0 <= i < box_size dims) ->
  (forall i c, getCell g i = Ok c -> c_state c = OPEN) ->
  (forall i, In i init -> ~ free g i) \/ (exists s, init = [s]) ->
  fmm_run HO fuel cfg goal init g (hempty HO) = Ok (st, log) ->
  SInv HO HL dims init (fs_g st) (fs_h st) log /\ RI g (fs_g st) (fs_h st) log /\ frame (fun _ => True) g (fs_g st) /\
  (helems HO (fs_h st) = [] \/ exists r, log = goal :: r).
Proof.
  intros Hg Hnd Hr Ho Hq H. unfold fmm_run in H. apply bind_ok in H. destruct H as [s0 [H1 H2]].
  destruct (quiet_init HO HL dims cfg init Hheur g Hg Hnd Hr Ho Hq) as [s0' [A [B C]]]. assert (s0' = s0) by congruence. subst s0'.
  refine (RI_loop g goal fuel s0 [] st log B C _ _ H2).
  - refine (foldM_inv_partial (fun s => frame (fun _ => True) g (fs_g s)) _ _ _ _ _ _ A); [apply frame_refl|].
    intros s k s1 Hk HF E. unfold fmm_init1 in E. invb. cbn. eapply frame_trans; [|eapply fmm_heur_frame; eauto]. eapply setval_init; eauto.
  - split; [|intros i j []]. intros i Hi. rewrite app_nil_r in Hi. apply reach_src.
    destruct (fmm_init_ok HO HL dims cfg init Hheur g Hg Hnd Hr Ho) as [s2 [A2 [_ P]]]. assert (s2 = s0) by congruence. subst s2.
    eapply Permutation_in; eauto.
Qed.

Lemma full_run_log g h log g0 : SInv HO HL dims init g h log -> RI g0 g h log -> helems HO h = [] ->
  forall i, In i log <-> reachable dims (fun k => In k init) (free g0) i.
Proof.
  intros I [R1 R2] E i. rewrite E in R1, R2. cbn [app] in R1, R2. split; [apply R1|].
  intros K. induction K as [i K|i j K IH Ha Hf]; [|eapply R2; eauto].
  pose proof (si_src _ _ _ _ _ _ _ I i K) as S. rewrite E in S. exact S.
Qed.
End Reach.

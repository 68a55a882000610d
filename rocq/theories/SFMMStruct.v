(** SFMMStruct.v - FMM over any narrow band that is a bag (duplicates and broken order
    allowed, as with FMPriorityQueue): termination, what is accepted, and the heuristic
    values it leaves (C67, C68). *)
From Coq Require Import Permutation Wellfounded Relation_Operators.
From Verif Require Import Base BaseFacts Num NumLaws NumWf Grid GridFacts GridUpd GridMore Spec Obs Eikonal
  FMMModel HeapRef HeapLaws BagHeap FMMStruct FMMReach Frame Term UntidyModel UFMMStruct.
Open Scope Z_scope.

Lemma filter_lset {A} (f : A -> bool) l n x y : nth_error l n = Some x ->
  (length (filter f (lset l n y)) + (if f x then 1 else 0) = length (filter f l) + (if f y then 1 else 0))%nat.
Proof.
  revert n; induction l as [|z l IH]; intros [|n] H; cbn in H; try discriminate.
  - injection H as ->. cbn. destruct (f x), (f y); cbn; lia.
  - specialize (IH n H). cbn. destruct (f z); cbn; lia.
Qed.

Lemma frame_occ_eq {N : Num} (g g' : grid N) i c c' : frame (fun _ => True) g g' -> getCell g i = Ok c -> getCell g' i = Ok c' -> c_occ c' = c_occ c.
Proof. intros [_ [_ [_ [_ [_ H]]]]] Hc Hc'. destruct (H i c Hc) as [c2 [H1 [H2 _]]]. congruence. Qed.

Section S.
Context {N : Num}.
Variable L : NumLaws N.
Variable HO : HeapOps N.
Variable BL : BagLaws HO.
Variable dims : list Z.
Hypothesis Hd2 : dims2 dims.
Hypothesis Hlt : 2 * box_size dims <= 4294967296.
Variable cfg : fmm_cfg (N := N).
Variable init : list Z.
Hypothesis Hheur : heur_ok dims cfg.
Variable g0 : grid N.
Let Hp : proper dims := dims2_proper' dims Hd2.

(** values: [OKv] holds of every computed time, and accepted improvements end *)
Variable GI : grid N -> Prop.
Variables (OKv Good : N -> Prop).
Hypothesis GI_ok : forall g, GI g -> grid_ok dims g.
Hypothesis GI_state : forall g i s g', GI g -> setState g i s = Ok g' -> GI g'.
Hypothesis GI_h : forall g i h g', GI g -> setHeuristicTime g i h = Ok g' -> GI g'.
Hypothesis GI_set : forall g i u g', GI g -> OKv u -> setArrivalTime g i u = Ok g' -> GI g'.
Hypothesis OKv_0 : OKv n0.
Hypothesis OKv_eik : forall g i c u, GI g -> 0 <= i < box_size dims -> getCell g i = Ok c -> isOccupied c = false -> solveEikonal g i = Ok u -> OKv u.
Hypothesis OKv_better : forall u x, OKv u -> isTimeBetterThan u x = true -> Good u.
Hypothesis Good_wf : well_founded (fun x y : N => isTimeBetterThan x y = true /\ Good x).

Local Notation SRp := (SRp Good).
Definition openc (g : grid N) : nat := length (filter (fun c => fmstate_eqb (c_state c) OPEN) (g_cells g)).

Lemma openc_upd (g : grid N) i f g' c : updCell g i f = Ok g' -> getCell g i = Ok c ->
  (openc g' + (if fmstate_eqb (c_state c) OPEN then 1 else 0) = openc g + (if fmstate_eqb (c_state (f c)) OPEN then 1 else 0))%nat.
Proof.
  intros H Hc. apply updCell_ok in H. destruct H as [c' [Hc' ->]]. assert (c' = c) by congruence. subst c'.
  unfold openc, with_cells. cbn [g_cells].
  apply vget_ok in Hc. destruct Hc as [_ Hc]. exact (filter_lset (fun c => fmstate_eqb (c_state c) OPEN) _ _ c (f c) Hc).
Qed.
Lemma openc_keep (g : grid N) i f g' : (forall c, c_state (f c) = c_state c) -> updCell g i f = Ok g' -> openc g' = openc g.
Proof.
  intros Hf H. pose proof H as K. apply updCell_ok in K. destruct K as [c [Hc _]]. pose proof (openc_upd g i f g' c H Hc) as E. rewrite Hf in E. lia.
Qed.
Lemma vals_keep (g : grid N) i f g' : (forall c, c_val (f c) = c_val c) -> updCell g i f = Ok g' -> vals g' = vals g.
Proof.
  intros Hf H. apply updCell_ok in H. destruct H as [c [Hc ->]]. unfold vals, with_cells. cbn [g_cells].
  rewrite map_lset, Hf. apply lset_id. rewrite nth_error_map. apply vget_ok in Hc. destruct Hc as [_ ->]. reflexivity.
Qed.

(** the heuristic value cell [i] must have, [c0] being the cell before the run *)
Definition hv (i : Z) (c0 : cell N) (h : N) : Prop :=
  match fc_strat cfg with
  | NOHEUR => h = c_h c0
  | TIME => exists d, getPrecomputedDistance cfg (g_sh g0) i = Ok d /\ h = ndiv d (c_occ c0)
  | DISTANCE => exists d, getPrecomputedDistance cfg (g_sh g0) i = Ok d /\ h = d
  end.

Record BI (g : grid N) (h : heap HO) (log : list Z) : Prop := {
  bi_gi : GI g;
  bi_fm : frame (fun _ => True) g0 g;
  bi_wf : bwf BL h;
  bi_rng : forall i, In i (helems HO h) -> 0 <= i < box_size dims /\ reachable dims (fun k => In k init) (free g0) i;
  bi_nar : forall i, cst g i = Some NARROW -> bval BL h i;
  bi_fr : forall i, cst g i = Some FROZEN <-> In i log;
  bi_log : forall i, In i log -> 0 <= i < box_size dims /\ reachable dims (fun k => In k init) (free g0) i;
  bi_all : forall i c c0, getCell g i = Ok c -> getCell g0 i = Ok c0 -> hv i c0 (c_h c) \/ c_h c = c_h c0;
  bi_hin : forall i c c0, In i (helems HO h) \/ In i log -> getCell g i = Ok c -> getCell g0 i = Ok c0 -> hv i c0 (c_h c)
}.

Lemma BI_grid g h log : BI g h log -> grid_ok dims g.
Proof. intros B. apply GI_ok, (bi_gi _ _ _ B). Qed.

(** setting the heuristic of [j] *)
Lemma heur_BI g h log j : BI g h log -> 0 <= j < box_size dims ->
  exists g', fmm_heur cfg g j = Ok g' /\ BI g' h log /\ (forall x, cst g' x = cst g x) /\ openc g' = openc g /\ vals g' = vals g /\
    (forall x, getArrivalTime g' x = getArrivalTime g x) /\
    (forall c c0, getCell g' j = Ok c -> getCell g0 j = Ok c0 -> hv j c0 (c_h c)).
Proof.
  intros B Hj. pose proof (BI_grid _ _ _ B) as Hg. destruct (getCell_in dims g j Hg Hj) as [c Hc].
  pose proof (bi_fm _ _ _ B) as HF. assert (Hsh : g_sh g = g_sh g0) by apply HF.
  assert (Hset : forall h1, (forall c0, getCell g0 j = Ok c0 -> hv j c0 h1) -> exists g', setHeuristicTime g j h1 = Ok g' /\ BI g' h log /\ (forall x, cst g' x = cst g x) /\ openc g' = openc g /\ vals g' = vals g /\
    (forall x, getArrivalTime g' x = getArrivalTime g x) /\
    (forall c c0, getCell g' j = Ok c -> getCell g0 j = Ok c0 -> hv j c0 (c_h c))).
  { intros h1 Hh1. destruct (updCell_in g j c (fun c => with_h c h1) Hc) as [g' Hg']. exists g'. split; [exact Hg'|].
    assert (Hs : forall x, cst g' x = cst g x) by (intros x; eapply cst_keep; [|exact Hg']; reflexivity).
    split; [|split; [exact Hs|split; [eapply openc_keep; [|exact Hg']; reflexivity|split; [eapply vals_keep; [|exact Hg']; reflexivity|split]]]].
    - destruct B as [B1 B2 B3 B4 B5 B6 B7 B8 B9]. constructor; auto.
      + eapply GI_h; eauto.
      + eapply frame_trans; [exact B2|]. eapply setHeuristicTime_frame; exact Hg'.
      + intros i. rewrite Hs. apply B5.
      + intros i. rewrite Hs. apply B6.
      + intros i c1 c0 H1 H0. rewrite (updCell_get _ _ _ _ i Hg') in H1. destruct (Z.eqb_spec j i) as [E|E]; [subst i|eauto].
        rewrite Hc in H1. injection H1 as <-. left. cbn. auto.
      + intros i c1 c0 Hi H1 H0. rewrite (updCell_get _ _ _ _ i Hg') in H1. destruct (Z.eqb_spec j i) as [E|E]; [subst i|eauto].
        rewrite Hc in H1. injection H1 as <-. cbn. auto.
    - intros x. eapply val_keep; [|exact Hg']; reflexivity.
    - intros c1 c0 H1 H0. rewrite (updCell_get _ _ _ _ j Hg'), Z.eqb_refl, Hc in H1. injection H1 as <-. cbn. auto. }
  unfold fmm_heur. pose proof Hg as [Hsh' _]. destruct (fc_strat cfg) eqn:Es.
  - exists g. repeat (split; [auto|]). intros c1 c0 H1 H0. destruct (bi_all _ _ _ B j c1 c0 H1 H0) as [K|K]; [exact K|]. unfold hv. rewrite Es. exact K.
  - destruct Hheur as [Hh|Hh]; [congruence|]. destruct (Hh j Hj) as [d Hd]. rewrite Hsh', Hd. cbn [bind]. rewrite Hc. cbn [bind]. apply Hset.
    intros c0 H0. unfold hv. rewrite Es. exists d. rewrite <- Hsh, Hsh'. split; [exact Hd|]. rewrite (frame_occ_eq g0 g j c0 c HF H0 Hc). reflexivity.
  - destruct Hheur as [Hh|Hh]; [congruence|]. destruct (Hh j Hj) as [d Hd]. rewrite Hsh', Hd. cbn [bind]. apply Hset.
    intros c0 H0. unfold hv. rewrite Es. exists d. rewrite <- Hsh, Hsh'. auto.
Qed.

Lemma set_BI g h log j t g' : BI g h log -> OKv t -> setArrivalTime g j t = Ok g' -> BI g' h log /\ (forall x, cst g' x = cst g x) /\ openc g' = openc g.
Proof.
  intros B Ho H. assert (Hs : forall x, cst g' x = cst g x) by (intros x; eapply cst_keep; [|exact H]; reflexivity).
  split; [|split; [exact Hs|eapply openc_keep; [|exact H]; reflexivity]].
  destruct B as [B1 B2 B3 B4 B5 B6 B7 B8 B9]. constructor; auto.
  - eapply GI_set; eauto.
  - eapply frame_trans; [exact B2|]. eapply setArrivalTime_frame; [exact H|left; exact Logic.I].
  - intros i. rewrite Hs. apply B5.
  - intros i. rewrite Hs. apply B6.
  - intros i c1 c0 H1 H0. rewrite (updCell_get _ _ _ _ i H) in H1. destruct (Z.eqb_spec j i) as [E|E]; [subst i|eauto].
    destruct (getCell g j) as [c|] eqn:Hc; [|discriminate]. injection H1 as <-. cbn. eauto.
  - intros i c1 c0 Hi H1 H0. rewrite (updCell_get _ _ _ _ i H) in H1. destruct (Z.eqb_spec j i) as [E|E]; [subst i|eauto].
    destruct (getCell g j) as [c|] eqn:Hc; [|discriminate]. injection H1 as <-. cbn. eauto.
Qed.

(** a heap with the same elements *)
Lemma heap_BI g h log h' : BI g h log -> bwf BL h' -> (forall x, In x (helems HO h') <-> In x (helems HO h)) ->
  (forall x, bval BL h x -> bval BL h' x) -> BI g h' log.
Proof.
  intros [B1 B2 B3 B4 B5 B6 B7 B8 B9] W E V. constructor; auto.
  - intros i Hi. apply B4, E, Hi.
  - intros i c c0 [Hi|Hi]; [apply B9; left; apply E, Hi|apply B9; right; exact Hi].
Qed.

Definition lexlt (g' g : grid N) : Prop := (openc g' < openc g)%nat \/ openc g' = openc g /\ SRp (vals g') (vals g).
Definition prog (st st' : fmm_state HO) : Prop :=
  openc (fs_g st') = openc (fs_g st) /\ vals (fs_g st') = vals (fs_g st) /\ fs_h st' = fs_h st \/ lexlt (fs_g st') (fs_g st).
Lemma lexlt_trans a b c : lexlt a b -> lexlt b c -> lexlt a c.
Proof. intros [A|[A1 A2]] [B|[B1 B2]]; [left; lia|left; lia|left; lia|right]. split; [lia|eapply t_trans; eauto]. Qed.
Lemma prog_refl st : prog st st. Proof. left; auto. Qed.
Lemma prog_trans a b c : prog a b -> prog b c -> prog a c.
Proof.
  intros [[A1 [A2 A3]]|A] [[B1 [B2 B3]]|B]; [left|right|right|right].
  - split; [congruence|]. split; congruence.
  - destruct B as [B|[B1 B2]]; [left; lia|right]. split; [lia|]. rewrite <- A2. exact B2.
  - destruct A as [A|[A1 A2]]; [left; lia|right]. split; [lia|]. rewrite B2. exact A2.
  - eapply lexlt_trans; eauto.
Qed.

Lemma neighbor_BI st j log : BI (fs_g st) (fs_h st) log -> 0 <= j < box_size dims ->
  (free g0 j -> reachable dims (fun k => In k init) (free g0) j) ->
  exists st', fmm_neighbor HO cfg st j = Ok st' /\ BI (fs_g st') (fs_h st') log /\
    (forall x, cst (fs_g st) x <> Some OPEN -> cst (fs_g st') x <> Some OPEN) /\
    (free g0 j -> cst (fs_g st') j <> Some OPEN) /\
    (forall x, In x (helems HO (fs_h st)) -> In x (helems HO (fs_h st'))) /\ prog st st'.
Proof.
  intros B Hj Hre. pose proof (BI_grid _ _ _ B) as Hg. unfold fmm_neighbor.
  destruct (getCell_in dims (fs_g st) j Hg Hj) as [c Hc]. rewrite Hc. cbn [bind].
  assert (Hfr : free g0 j <-> isOccupied c = false).
  { rewrite (free_frame g0 (fs_g st) j (bi_fm _ _ _ B)). split; [intros [c' [E K]]; congruence|]. intros K. exists c. auto. }
  destruct (fmstate_eqb (c_state c) FROZEN) eqn:EF; cbn [orb].
  { exists st. split; [reflexivity|]. split; [exact B|]. split; [auto|]. split; [|split; [auto|apply prog_refl]].
    intros _. rewrite (cst_get _ _ _ Hc). apply eqb_state in EF. congruence. }
  destruct (isOccupied c) eqn:EO.
  { exists st. split; [reflexivity|]. split; [exact B|]. split; [auto|]. split; [|split; [auto|apply prog_refl]].
    intros K. apply Hfr in K. discriminate. }
  apply eqb_state_false in EF.
  destruct (solveEikonal_total L dims (fs_g st) j Hd2 Hlt Hg Hj) as [t Ht]. rewrite Ht. cbn [bind].
  assert (Hok : OKv t) by (eapply OKv_eik; eauto; apply (bi_gi _ _ _ B)).
  destruct (heur_BI _ _ _ j B Hj) as [g1 [Hg1 [B1 [S1 [O1 [V1 [T1 Hv1]]]]]]]. rewrite Hg1. cbn [bind].
  destruct (getCell_in dims g1 j (BI_grid _ _ _ B1) Hj) as [c1 Hc1]. rewrite Hc1. cbn [bind].
  assert (Es : c_state c1 = c_state c) by (pose proof (S1 j) as K; rewrite (cst_get _ _ _ Hc), (cst_get _ _ _ Hc1) in K; congruence).
  assert (Ev : c_val c1 = c_val c) by (pose proof (T1 j) as K; unfold getArrivalTime in K; rewrite Hc, Hc1 in K; cbn in K; congruence).
  destruct (fmstate_eqb (c_state c1) NARROW) eqn:EN.
  - apply eqb_state in EN. destruct (isTimeBetterThan t (c_val c1)) eqn:Eb.
    + destruct (updCell_in g1 j c1 (fun c => with_val c t) Hc1) as [g2 Hg2].
      change (updCell g1 j (fun c => with_val c t)) with (setArrivalTime g1 j t) in Hg2. rewrite Hg2. cbn [bind].
      assert (Hin : bval BL (fs_h st) j).
      { apply (bi_nar _ _ _ B). rewrite (cst_get _ _ _ Hc). congruence. }
      destruct (bl_incr HO BL (key g2) j (fs_h st) (bi_wf _ _ _ B) Hin) as [h2 [Hh2 [W2 [E2 F2]]]]. rewrite Hh2. cbn [bind].
      destruct (set_BI _ _ _ _ _ _ B1 Hok Hg2) as [B2 [S2 O2]].
      eexists. split; [reflexivity|]. cbn [fs_g fs_h]. split; [eapply heap_BI; eauto|]. split; [intros x; rewrite S2, S1; auto|].
      split; [intros _; rewrite S2, S1, (cst_get _ _ _ Hc); congruence|]. split; [intros x Hx; apply E2; exact Hx|].
      right. right. cbn [fs_g]. split; [lia|]. rewrite <- V1. eapply vals_better; [exact Hc1|exact Eb| |exact Hg2]. eapply OKv_better; eauto.
    + eexists. split; [reflexivity|]. cbn [fs_g fs_h]. split; [exact B1|]. split; [intros x; rewrite S1; auto|].
      split; [intros _; rewrite S1, (cst_get _ _ _ Hc); congruence|]. split; [auto|]. left. cbn [fs_g fs_h]. auto.
  - apply eqb_state_false in EN. assert (EOp : c_state c1 = OPEN) by (apply state_cases; congruence).
    destruct (updCell_in g1 j c1 (fun c => with_state c NARROW) Hc1) as [g2 Hg2].
    change (updCell g1 j (fun c => with_state c NARROW)) with (setState g1 j NARROW) in Hg2. rewrite Hg2. cbn [bind].
    assert (Hc2 : getCell g2 j = Ok (with_state c1 NARROW)) by (rewrite (updCell_get _ _ _ _ j Hg2), Z.eqb_refl, Hc1; reflexivity).
    destruct (updCell_in g2 j _ (fun c => with_val c t) Hc2) as [g3 Hg3].
    change (updCell g2 j (fun c => with_val c t)) with (setArrivalTime g2 j t) in Hg3. rewrite Hg3. cbn [bind].
    eexists. split; [reflexivity|]. cbn [fs_g fs_h].
    destruct (bl_push HO BL (key g3) j (fs_h st) (bi_wf _ _ _ B)) as [W [P [Q1 Q2]]]. set (h3 := hpush HO (key g3) j (fs_h st)) in *.
    assert (HP : forall x, In x (helems HO h3) <-> x = j \/ In x (helems HO (fs_h st))).
    { intros x. split; intros K.
      - apply (Permutation_in _ P) in K. destruct K as [<-|K]; auto.
      - eapply Permutation_in; [symmetry; exact P|]. destruct K as [->|K]; [left|right]; auto. }
    assert (S2 : forall x, cst g2 x = if j =? x then Some NARROW else cst g1 x) by (intros x; apply (cst_setState _ _ _ _ x Hg2)).
    assert (B2 : BI g2 h3 log).
    { destruct B1 as [D1 D2 D3 D4 D5 D6 D7 D8 D9]. constructor; auto.
      - eapply GI_state; eauto.
      - eapply frame_trans; [exact D2|]. eapply setState_frame; exact Hg2.
      - intros i Hi. apply HP in Hi. destruct Hi as [->|Hi]; [|auto]. split; [exact Hj|]. apply Hre, Hfr. reflexivity.
      - intros i Hi. rewrite S2 in Hi. destruct (Z.eqb_spec j i); [subst i; exact Q1|apply Q2; auto].
      - intros i. rewrite S2. destruct (Z.eqb_spec j i) as [E|E]; [subst i|apply D6]. split; [discriminate|]. intros K. apply D6 in K.
        rewrite (cst_get _ _ _ Hc1), EOp in K. discriminate.
      - intros i ci c0 H1 H0. rewrite (updCell_get _ _ _ _ i Hg2) in H1. destruct (Z.eqb_spec j i) as [E|E]; [subst i|eauto].
        rewrite Hc1 in H1. injection H1 as <-. cbn. left. eauto.
      - intros i ci c0 Hi H1 H0. rewrite (updCell_get _ _ _ _ i Hg2) in H1. destruct (Z.eqb_spec j i) as [E|E].
        + subst i. rewrite Hc1 in H1. injection H1 as <-. cbn. eauto.
        + eapply D9; eauto. destruct Hi as [Hi|Hi]; [left|right; exact Hi]. apply HP in Hi. destruct Hi as [->|Hi]; [congruence|exact Hi]. }
    destruct (set_BI _ _ _ _ _ _ B2 Hok Hg3) as [B3 [S3 O3]].
    split; [exact B3|]. split; [intros x; rewrite S3, S2, S1; destruct (j =? x); [discriminate|auto]|].
    split; [intros _; rewrite S3, S2, Z.eqb_refl; discriminate|]. split; [intros x Hx; apply HP; auto|].
    right. left. cbn [fs_g]. pose proof (openc_upd _ _ _ _ _ Hg2 Hc1) as K. rewrite EOp in K. cbn in K. lia.
Qed.

(** taking a cell out and freezing it *)
Lemma pop_BI g h log m h1 g1 : BI g h log -> hpop HO (key g) h = Some (m, h1) -> setState g m FROZEN = Ok g1 ->
  BI g1 h1 (m :: log) /\ (openc g1 <= openc g)%nat /\ vals g1 = vals g /\ length (helems HO h) = S (length (helems HO h1)) /\
  (forall x, cst g x <> Some OPEN -> cst g1 x <> Some OPEN) /\ (forall x, In x (helems HO h) -> x = m \/ In x (helems HO h1)).
Proof.
  intros B Hpop Hg1. destruct (bl_pop HO BL _ _ _ _ (bi_wf _ _ _ B) Hpop) as [W [P Q]].
  assert (HP : forall x, In x (helems HO h) <-> x = m \/ In x (helems HO h1)).
  { intros x. split; intros K.
    - apply (Permutation_in _ P) in K. destruct K as [<-|K]; auto.
    - eapply Permutation_in; [symmetry; exact P|]. destruct K as [->|K]; [left|right]; auto. }
  assert (Hm : In m (helems HO h)) by (apply HP; auto). destruct (bi_rng _ _ _ B m Hm) as [Hmr Hmre].
  assert (Hs : forall x, cst g1 x = if m =? x then Some FROZEN else cst g x) by (intros x; apply (cst_setState _ _ _ _ x Hg1)).
  destruct (getCell_in dims g m (BI_grid _ _ _ B) Hmr) as [c Hc].
  split; [|split; [|split; [|split; [|split]]]].
  - destruct B as [D1 D2 D3 D4 D5 D6 D7 D8 D9]. constructor; auto.
    + eapply GI_state; eauto.
    + eapply frame_trans; [exact D2|]. eapply setState_frame; exact Hg1.
    + intros i Hi. apply D4, HP. auto.
    + intros i Hi. rewrite Hs in Hi. destruct (Z.eqb_spec m i); [discriminate|]. apply Q; [congruence|]. apply D5. exact Hi.
    + intros i. rewrite Hs. cbn. destruct (Z.eqb_spec m i) as [E|E]; [tauto|]. rewrite D6. tauto.
    + intros i [<-|Hi]; [auto|apply D7; exact Hi].
    + intros i ci c0 H1 H0. rewrite (updCell_get _ _ _ _ i Hg1) in H1. destruct (Z.eqb_spec m i) as [E|E]; [subst i|eauto].
      rewrite Hc in H1. injection H1 as <-. cbn. eauto.
    + intros i ci c0 Hi H1 H0. rewrite (updCell_get _ _ _ _ i Hg1) in H1. destruct (Z.eqb_spec m i) as [E|E].
      * subst i. rewrite Hc in H1. injection H1 as <-. cbn. eapply D9; eauto.
      * eapply D9; eauto. destruct Hi as [Hi|[Hi|Hi]]; [left; apply HP; auto|congruence|right; exact Hi].
  - pose proof (openc_upd _ _ _ _ _ Hg1 Hc) as K. cbn in K. destruct (fmstate_eqb (c_state c) OPEN); lia.
  - eapply vals_keep; [|exact Hg1]; reflexivity.
  - apply Permutation_length in P. exact P.
  - intros x. rewrite Hs. destruct (m =? x); [discriminate|auto].
  - intros x Hx. apply HP. exact Hx.
Qed.

(** nothing next to an accepted cell is left untouched; sources are queued or accepted *)
Definition CL (g : grid N) (log : list Z) : Prop := forall y x, In y log -> adjacent dims y x -> free g0 x -> cst g x <> Some OPEN.
Definition SRC (h : heap HO) (log : list Z) : Prop := forall i, In i init -> In i (helems HO h) \/ In i log.

Lemma step_BI st log : BI (fs_g st) (fs_h st) log -> CL (fs_g st) log -> SRC (fs_h st) log ->
  (helems HO (fs_h st) = [] /\ fmm_step HO cfg st = Ok None) \/
  exists m st', fmm_step HO cfg st = Ok (Some (m, st')) /\ BI (fs_g st') (fs_h st') (m :: log) /\ CL (fs_g st') (m :: log) /\ SRC (fs_h st') (m :: log) /\
    (lexlt (fs_g st') (fs_g st) \/ openc (fs_g st') = openc (fs_g st) /\ vals (fs_g st') = vals (fs_g st) /\
       (length (helems HO (fs_h st')) < length (helems HO (fs_h st)))%nat).
Proof.
  intros B HC HS. unfold fmm_step. destruct (hpop HO (key (fs_g st)) (fs_h st)) as [[m h1]|] eqn:Hpop.
  2:{ left. split; [|reflexivity]. apply (bl_pop_none HO BL) in Hpop; [exact Hpop|apply (bi_wf _ _ _ B)]. }
  right. pose proof (BI_grid _ _ _ B) as Hg. pose proof Hg as [Hsh _].
  assert (Hm : In m (helems HO (fs_h st))).
  { destruct (bl_pop HO BL _ _ _ _ (bi_wf _ _ _ B) Hpop) as [_ [P _]]. eapply Permutation_in; [symmetry; exact P|left; reflexivity]. }
  destruct (bi_rng _ _ _ B m Hm) as [Hmr Hmre]. rewrite Hsh, getNeighbors_eq by assumption. cbn [bind].
  destruct (getCell_in dims (fs_g st) m Hg Hmr) as [c Hc].
  destruct (updCell_in (fs_g st) m c (fun c => with_state c FROZEN) Hc) as [g1 Hg1].
  change (updCell (fs_g st) m (fun c => with_state c FROZEN)) with (setState (fs_g st) m FROZEN) in Hg1. rewrite Hg1. cbn [bind].
  destruct (pop_BI _ _ _ _ _ _ B Hpop Hg1) as [B1 [O1 [V1 [L1 [M1 E1]]]]].
  destruct (foldM_seq (fun pre s => BI (fs_g s) (fs_h s) (m :: log) /\ (forall x, cst g1 x <> Some OPEN -> cst (fs_g s) x <> Some OPEN) /\
      (forall x, In x pre -> free g0 x -> cst (fs_g s) x <> Some OPEN) /\ (forall x, In x (helems HO h1) -> In x (helems HO (fs_h s))) /\ prog (mkFst g1 h1) s)
      (fmm_neighbor HO cfg) (nbrs dims m) (mkFst g1 h1)) as [st' [Hf [B2 [M2 [N2 [E2 P2]]]]]].
  - cbn [fs_g fs_h]. split; [exact B1|]. split; [auto|]. split; [intros x []|]. split; [auto|apply prog_refl].
  - intros pre j post s Epre [B2 [M2 [N2 [E2 P2]]]].
    assert (Hadj : adjacent dims m j) by (apply (nbrs_spec dims m j Hp Hmr); rewrite Epre; apply in_or_app; right; left; reflexivity).
    destruct (neighbor_BI s j (m :: log) B2) as [s' [Hs' [B3 [M3 [N3 [E3 P3]]]]]]; [apply (adjacent_range _ _ _ Hadj)| |].
    { intros Hfj. eapply reach_step; eauto. }
    exists s'. split; [exact Hs'|]. split; [exact B3|]. split; [auto|]. split; [|split; [auto|eapply prog_trans; eauto]].
    intros x Hx Hfx. apply in_app_or in Hx. destruct Hx as [Hx|[<-|[]]]; auto.
  - rewrite Hf. cbn [bind]. exists m, st'. split; [reflexivity|]. split; [exact B2|]. split; [|split].
    + intros y x [<-|Hy] Ha Hfx; [apply N2; [apply (nbrs_spec dims m x Hp Hmr); exact Ha|exact Hfx]|].
      apply M2, M1. eapply HC; eauto.
    + intros i Hi. destruct (HS i Hi) as [K|K]; [|right; right; exact K]. destruct (E1 i K) as [->|K1]; [right; left; reflexivity|left; auto].
    + destruct P2 as [[P2 [P3 P4]]|P2]; cbn [fs_g fs_h] in *.
      * destruct (Nat.eq_dec (openc g1) (openc (fs_g st))) as [Eo|Eo]; [|left; left; lia].
        right. split; [lia|]. split; [congruence|]. rewrite P4. lia.
      * left. destruct P2 as [P2|[P2 P3]]; [left; lia|]. destruct (Nat.eq_dec (openc g1) (openc (fs_g st))) as [Eo|Eo]; [right|left; lia].
        split; [lia|]. rewrite <- V1. exact P3.
Qed.

(** the loop ends *)
Lemma lex_acc : forall o v, Acc SRp v -> (forall v', Acc SRp v' -> forall o', (o' < o)%nat -> forall n goal st log, (length (helems HO (fs_h st)) < n)%nat -> openc (fs_g st) = o' -> vals (fs_g st) = v' ->
    BI (fs_g st) (fs_h st) log -> CL (fs_g st) log -> SRC (fs_h st) log ->
    exists k st' log', (forall fuel, (k <= fuel)%nat -> fmm_loop HO fuel cfg goal st log = Ok (st', log')) /\
      BI (fs_g st') (fs_h st') log' /\ CL (fs_g st') log' /\ SRC (fs_h st') log' /\ (helems HO (fs_h st') = [] \/ hd_error log' = Some goal)) ->
  forall n goal st log, (length (helems HO (fs_h st)) < n)%nat -> openc (fs_g st) = o -> vals (fs_g st) = v ->
    BI (fs_g st) (fs_h st) log -> CL (fs_g st) log -> SRC (fs_h st) log ->
    exists k st' log', (forall fuel, (k <= fuel)%nat -> fmm_loop HO fuel cfg goal st log = Ok (st', log')) /\
      BI (fs_g st') (fs_h st') log' /\ CL (fs_g st') log' /\ SRC (fs_h st') log' /\ (helems HO (fs_h st') = [] \/ hd_error log' = Some goal).
Proof.
  intros o v Hv IHo. induction Hv as [v _ IHv].
  induction n as [|n IHn]; intros goal st log Hn Eo Ev B HC HS; [lia|].
  destruct (step_BI st log B HC HS) as [[E Hst]|[m [st1 [Hst [B1 [C1 [S1 P1]]]]]]].
  { exists 1%nat, st, log. split; [|auto]. intros [|fuel] Hf; [lia|]. cbn [fmm_loop]. rewrite Hst. reflexivity. }
  destruct (Z.eqb_spec m goal) as [Em|Em].
  { subst m. exists 1%nat, st1, (goal :: log). split; [|split; [exact B1|split; [exact C1|split; [exact S1|right; reflexivity]]]].
    intros [|fuel] Hf; [lia|]. cbn [fmm_loop]. rewrite Hst. cbn [bind]. rewrite Z.eqb_refl. reflexivity. }
  assert (Hrest : exists k st' log', (forall fuel, (k <= fuel)%nat -> fmm_loop HO fuel cfg goal st1 (m :: log) = Ok (st', log')) /\
      BI (fs_g st') (fs_h st') log' /\ CL (fs_g st') log' /\ SRC (fs_h st') log' /\ (helems HO (fs_h st') = [] \/ hd_error log' = Some goal)).
  { destruct P1 as [[P1|[P1 P2]]|[P1 [P2 P3]]].
    - eapply (IHo (vals (fs_g st1)) (SRp_wf Good Good_wf _) (openc (fs_g st1))); eauto. lia.
    - eapply (IHv (vals (fs_g st1))); eauto; [rewrite <- Ev; exact P2|congruence].
    - eapply IHn; eauto; [lia|congruence|congruence]. }
  destruct Hrest as [k [st' [log' [Hk R]]]]. exists (S k), st', log'. split; [|exact R].
  intros [|fuel] Hf; [lia|]. cbn [fmm_loop]. rewrite Hst. cbn [bind]. destruct (Z.eqb_spec m goal); [congruence|]. apply Hk. lia.
Qed.

Lemma loop_BI : forall o v, forall n goal st log, (length (helems HO (fs_h st)) < n)%nat -> openc (fs_g st) = o -> vals (fs_g st) = v ->
    BI (fs_g st) (fs_h st) log -> CL (fs_g st) log -> SRC (fs_h st) log ->
    exists k st' log', (forall fuel, (k <= fuel)%nat -> fmm_loop HO fuel cfg goal st log = Ok (st', log')) /\
      BI (fs_g st') (fs_h st') log' /\ CL (fs_g st') log' /\ SRC (fs_h st') log' /\ (helems HO (fs_h st') = [] \/ hd_error log' = Some goal).
Proof.
  intros o. induction o as [o IH] using lt_wf_ind. intros v. apply (lex_acc o v); [apply SRp_wf; exact Good_wf|].
  intros v' _ o' Ho. apply IH. exact Ho.
Qed.

Hypothesis Hg0 : GI g0.
Hypothesis Hopen : forall i c, getCell g0 i = Ok c -> c_state c = OPEN.
Hypothesis Hrng : forall i, In i init -> 0 <= i < box_size dims.

Lemma init_BI : exists st, foldM (fmm_init1 HO cfg) init (mkFst g0 (hempty HO)) = Ok st /\
  BI (fs_g st) (fs_h st) [] /\ SRC (fs_h st) [].
Proof.
  destruct (bl_empty HO BL) as [W0 E0].
  destruct (foldM_seq (fun pre s => BI (fs_g s) (fs_h s) [] /\ (forall x, cst (fs_g s) x = cst g0 x) /\ (forall x, In x (helems HO (fs_h s)) <-> In x pre))
     (fmm_init1 HO cfg) init (mkFst g0 (hempty HO))) as [st [Hf [B [_ E]]]].
  - cbn [fs_g fs_h]. assert (Hn : forall s i, s <> OPEN -> cst g0 i <> Some s).
    { intros s i Hs. unfold cst. destruct (getCell g0 i) as [c|] eqn:Ec; [|discriminate]. rewrite (Hopen i c Ec). congruence. }
    split; [|split; [reflexivity|rewrite E0; reflexivity]]. constructor; auto.
    + apply frame_refl.
    + rewrite E0. intros i [].
    + intros i Hi. destruct (Hn NARROW i ltac:(discriminate) Hi).
    + intros i. split; [intros Hi; destruct (Hn FROZEN i ltac:(discriminate) Hi)|intros []].
    + intros i [].
    + intros i c c0 H1 H0. right. congruence.
    + rewrite E0. intros i c c0 [[]|[]].
  - intros pre i post s Epre [B [S E]]. assert (Hi : In i init) by (rewrite Epre; apply in_or_app; right; left; reflexivity).
    pose proof (Hrng i Hi) as Hir. unfold fmm_init1. destruct (getCell_in dims (fs_g s) i (BI_grid _ _ _ B) Hir) as [c Hc].
    destruct (updCell_in (fs_g s) i c (fun c => with_val c n0) Hc) as [g1 Hg1].
    change (updCell (fs_g s) i (fun c => with_val c n0)) with (setArrivalTime (fs_g s) i n0) in Hg1. rewrite Hg1. cbn [bind].
    destruct (set_BI _ _ _ _ _ _ B OKv_0 Hg1) as [B1 [S1 _]].
    destruct (heur_BI _ _ _ i B1 Hir) as [g2 [Hg2 [B2 [S2 [_ [_ [_ Hv2]]]]]]]. rewrite Hg2. cbn [bind].
    eexists. split; [reflexivity|]. cbn [fs_g fs_h].
    destruct (bl_push HO BL (key g2) i (fs_h s) (bi_wf _ _ _ B)) as [W [P [Q1 Q2]]]. set (h3 := hpush HO (key g2) i (fs_h s)) in *.
    assert (HP : forall x, In x (helems HO h3) <-> x = i \/ In x (helems HO (fs_h s))).
    { intros x. split; intros K.
      - apply (Permutation_in _ P) in K. destruct K as [<-|K]; auto.
      - eapply Permutation_in; [symmetry; exact P|]. destruct K as [->|K]; [left|right]; auto. }
    split; [|split; [intros x; rewrite S2, S1; apply S|]].
    + destruct B2 as [D1 D2 D3 D4 D5 D6 D7 D8 D9]. constructor; auto.
      * intros x Hx. apply HP in Hx. destruct Hx as [->|Hx]; [|auto]. split; [exact Hir|]. apply reach_src. exact Hi.
      * intros x cx c0 [Hx|[]] H1 H0. apply HP in Hx. destruct Hx as [->|Hx]; [eauto|]. eapply D9; eauto.
    + intros x. rewrite HP, E. rewrite in_app_iff. cbn. intuition.
  - exists st. split; [exact Hf|]. split; [exact B|]. intros i Hi. left. apply E. exact Hi.
Qed.

Theorem bag_run goal : exists k st log, (forall fuel, (k <= fuel)%nat -> fmm_run HO fuel cfg goal init g0 (hempty HO) = Ok (st, log)) /\
  BI (fs_g st) (fs_h st) log /\ CL (fs_g st) log /\ SRC (fs_h st) log /\ (helems HO (fs_h st) = [] \/ hd_error log = Some goal).
Proof.
  destruct init_BI as [st [Hf [B Sx]]].
  destruct (loop_BI _ _ (S (length (helems HO (fs_h st)))) goal st [] (Nat.lt_succ_diag_r _) eq_refl eq_refl B) as [k [st' [log [Hk R]]]].
  - intros y x [].
  - exact Sx.
  - exists k, st', log. split; [|exact R]. intros fuel Hfu. unfold fmm_run. rewrite Hf. cbn [bind]. apply Hk. exact Hfu.
Qed.

Lemma bag_done g h log : BI g h log -> CL g log -> SRC h log -> helems HO h = [] ->
  forall x, In x log <-> reachable dims (fun k => In k init) (free g0) x.
Proof.
  intros B HC HS E x. split; [intros K; apply (bi_log _ _ _ B x K)|].
  intros R. induction R as [x Hx|y x R IH Ha Hfx].
  - destruct (HS x Hx) as [K|K]; [rewrite E in K; destruct K|exact K].
  - specialize (HC y x IH Ha Hfx). pose proof (adjacent_range _ _ _ Ha) as [_ Hxr].
    destruct (getCell_in dims g x (BI_grid _ _ _ B) Hxr) as [c Hc]. rewrite (cst_get _ _ _ Hc) in HC.
    apply (bi_fr _ _ _ B). rewrite (cst_get _ _ _ Hc). destruct (c_state c) eqn:Ec; [congruence| |reflexivity].
    exfalso. pose proof (bi_nar _ _ _ B x) as K. rewrite (cst_get _ _ _ Hc), Ec in K.
    pose proof (bl_val_in HO BL _ _ (bi_wf _ _ _ B) (K eq_refl)) as K2. rewrite E in K2. destruct K2.
Qed.
End S.

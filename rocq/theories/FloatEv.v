(** FloatEv.v - solvers that only ever lower a time keep the invariants of FloatSweep.v
    in doubles: FMM with any narrow band and any heuristic, UFMM, GMM (C81). *)
From Coq Require Import Reals Lra Permutation FunctionalExtensionality.
From Flocq Require Import Core IEEE754.BinarySingleNaN.
From Verif Require Import Base BaseFacts Num NumXR NumF64 NumLaws Grid GridFacts GridUpd GridMore Spec Obs Eikonal
  FMMModel QueueModel UntidyModel HeapRef HeapLaws BagHeap Frame FMMStruct FMMReach EikR Solution XGrid FMMAbs FMMX Relax Examples Evolve UntidySpec Untidy UFMMStruct
  FloatOps FloatEik FloatErr FloatUpd FloatAbs FloatGrid FloatSweep.
Open Scope Z_scope.

Section EX.
Variable dims : list Z.
Hypothesis Hd2 : dims2 dims.
Hypothesis Hlt : 2 * box_size dims <= 4294967296.
Variable init : list Z.
Hypothesis Hrng : forall i, In i init -> 0 <= i < box_size dims.
Variable g0 : grid F64.
Hypothesis Hg0 : grid_ok dims g0.
Hypothesis Hrg : range_ok g0.
Hypothesis Hfresh : forall i c, getCell g0 i = Ok c -> c_val c = ninf.
Hypothesis Hopen : forall i c, getCell g0 i = Ok c -> c_state c = OPEN.

Let Hp : proper dims := dims2_proper' dims Hd2.
Notation fr := (free g0).
Notation f := (slow64 g0).
Variables flo fhi : R.
Hypothesis Hflo : (0 < flo)%R.
Hypothesis Hfh : (0 <= fhi)%R.
Hypothesis Hfr : forall i, fr i -> (flo <= f i <= fhi)%R.
Notation nd := (INR (length dims)).
Hypothesis Hsmall : (256 * (nd * nd * nd * nd) * (uu * ((Bmax dims fhi + 3 * fhi) * (Bmax dims fhi + 3 * fhi))) <= flo * flo)%R.
Variable XE : time_map.
Hypothesis HX : exact_solution dims (fun i => In i init) fr f XE.
Variable Xm : R.
Hypothesis HXm : forall i x, XE i = Some x -> (x <= Xm)%R.

Notation GX := (GX dims init g0 flo fhi XE Xm).
Notation GI0 := (GI0 init g0).

Lemma gx_meta g i fn g' : GX g -> meta fn -> updCell g i fn = Ok g' -> GX g'.
Proof.
  intros [F T S NE] Hm H. assert (E : times64 g' = times64 g) by (eapply times64_upd_keep; [exact H|intros c; apply Hm]).
  constructor.
  - eapply frame_trans; [exact F|]. eapply updCell_frame; [exact H|]. intros c _. destruct (Hm c) as [A [B C]]. auto.
  - eapply upd_times_ok64; [exact H|intros c; apply Hm|exact T].
  - rewrite E. exact S.
  - rewrite E. exact NE.
Qed.

Lemma inf_top64 (x : F64) : nltb (ninf : F64) x = false.
Proof. rewrite lt_toX. change (toX (ninf : F64)) with XPInf. destruct (toX x); reflexivity. Qed.

(** a free cell gets the value computed for it, lower than its present one *)
Lemma gx_lower g i c (u : F64) g' : GX g -> getCell g i = Ok c -> isOccupied c = false -> solveEikonal g i = Ok u ->
  c_val c = ninf \/ nltb u (c_val c) = true -> setArrivalTime g i u = Ok g' -> GX g'.
Proof.
  intros G Hc Ho Hu Hl Hs. pose proof G as [F T S NE].
  assert (Hi : 0 <= i < box_size dims).
  { pose proof (getCell_range _ _ _ Hc) as K. destruct (frame_grid_ok _ _ _ _ F Hg0) as [_ <-]. exact K. }
  pose proof (gx_free dims init g0 flo fhi XE Xm _ _ _ G Hc Ho) as Hfi.
  destruct (solve_F dims Hd2 Hlt init g0 Hrg flo fhi Hflo Hfr Hsmall g i c _ F Hg0 T S Hi Hc Ho) as [u' [Hu' Hcase]].
  assert (u' = u) by congruence. subst u'. clear Hu'.
  destruct Hcase as [[-> E]|[r [Fu [Bu Sv]]]].
  - destruct Hl as [Hl|Hl]; [|rewrite inf_top64 in Hl; discriminate].
    assert (ET : times64 g' = times64 g).
    { apply functional_extensionality. intros j. unfold times64, getArrivalTime. rewrite (updCell_get _ _ _ _ j Hs).
      destruct (Z.eqb_spec i j) as [E1|E1]; [|reflexivity]. subst j. rewrite Hc. cbn [bind with_val c_val]. rewrite Hl. reflexivity. }
    constructor.
    + eapply frame_trans; [exact F|]. eapply setArrivalTime_frame; [exact Hs|]. right. intros; congruence.
    + intros j c' Hc'. rewrite (updCell_get _ _ _ _ j Hs) in Hc'. destruct (Z.eqb_spec i j) as [E1|E1]; [|exact (T j c' Hc')].
      subst j. rewrite Hc in Hc'. injection Hc' as <-. left. reflexivity.
    + rewrite ET. exact S.
    + rewrite ET. exact NE.
  - assert (Hlow : forall o, times64 g i = Some o -> (r < o)%R).
    { intros o Ho'. pose proof (times64_val g i c T Hc) as Ev. rewrite Ho' in Ev. cbn [ox] in Ev. destruct Hl as [Hl|Hl].
      - rewrite Hl in Ev. discriminate Ev.
      - rewrite lt_toX, Ev, (Fin_toX _ _ Fu) in Hl. cbn [xltb] in Hl. apply Rltb_true in Hl. exact Hl. }
    destruct (fs_lower dims init fr f Hp flo fhi Hflo Hfr _ i r S Hfi Hi Sv Hlow) as [S' Hni].
    pose proof (times64_set g i u r g' Hs Fu) as ET. constructor.
    + eapply frame_trans; [exact F|]. eapply setArrivalTime_frame; [exact Hs|]. right. intros; congruence.
    + eapply (set_times_ok64 g g' i u r); eauto. destruct (sv_rng _ _ _ _ _ _ Sv); lra.
    + rewrite ET. exact S'.
    + rewrite ET. apply (not_early_upd dims init fr f Hp flo fhi Hflo Hfr XE HX Xm HXm); auto.
Qed.

(** a time has been computed *)
Definition finT (g : grid F64) (i : Z) : Prop := times64 g i <> None.

Lemma fin_keep g i fn g' x : meta fn -> updCell g i fn = Ok g' -> finT g x -> finT g' x.
Proof. intros Hm H K. unfold finT. rewrite (times64_upd_keep g i fn g' H (fun c => proj1 (Hm c))). exact K. Qed.

Lemma fin_lower g i c (u : F64) g' : GX g -> getCell g i = Ok c -> isOccupied c = false -> solveEikonal g i = Ok u ->
  nltb u (c_val c) = true \/ (c_val c = ninf /\ exists m, adjacent dims m i /\ finT g m) -> setArrivalTime g i u = Ok g' ->
  finT g' i /\ forall x, finT g x -> finT g' x.
Proof.
  intros G Hc Ho Hu Hl Hs. pose proof G as [F T S NE].
  assert (Hi : 0 <= i < box_size dims).
  { pose proof (getCell_range _ _ _ Hc) as K. destruct (frame_grid_ok _ _ _ _ F Hg0) as [_ <-]. exact K. }
  destruct (solve_F dims Hd2 Hlt init g0 Hrg flo fhi Hflo Hfr Hsmall g i c _ F Hg0 T S Hi Hc Ho) as [u' [Hu' Hcase]].
  assert (u' = u) by congruence. subst u'. clear Hu'.
  destruct Hcase as [[-> E]|[r [Fu [Bu Sv]]]].
  - exfalso. destruct Hl as [Hl|[Hl [m [Ha Hm]]]]; [rewrite inf_top64 in Hl; discriminate|]. apply Hm.
    assert (EN : times64 g i = None) by (unfold times64, getArrivalTime; rewrite Hc; cbn [bind]; rewrite Hl; reflexivity).
    rewrite EN in E. cbn [upw] in E. exact (somes_dmins_empty dims Hp (times64 g) i m Hi E (adjacent_sym _ _ _ Ha)).
  - unfold finT. rewrite (times64_set g i u r g' Hs Fu). split; [rewrite upd_same; discriminate|].
    intros x Hx. unfold upd. destruct (Z.eq_dec x i); [discriminate|exact Hx].
Qed.

(** cells still OPEN have no time, initial points apart *)
Definition OI (g : grid F64) : Prop :=
  forall i c, getCell g i = Ok c -> c_state c = OPEN -> ~ In i init -> c_val c = ninf.

Lemma oi_upd g i fn g' : OI g -> updCell g i fn = Ok g' ->
  (forall c, getCell g i = Ok c -> c_state (fn c) = OPEN -> ~ In i init -> c_state c = OPEN /\ c_val (fn c) = c_val c) -> OI g'.
Proof.
  intros O H Hf j c Hc Hst Hni. rewrite (updCell_get _ _ _ _ j H) in Hc. destruct (Z.eqb_spec i j) as [E|E]; [subst j|exact (O j c Hc Hst Hni)].
  destruct (getCell g i) as [c0|] eqn:E0; [|discriminate]. injection Hc as <-. destruct (Hf c0 eq_refl Hst Hni) as [A B]. rewrite B. exact (O i c0 E0 A Hni).
Qed.

Definition PX (g : grid F64) : Prop := GX g /\ OI g.

Lemma px_meta g i fn g' : PX g -> meta fn -> (forall c, c_state (fn c) = OPEN -> c_state c = OPEN) -> updCell g i fn = Ok g' -> PX g'.
Proof.
  intros [G O] Hm Hst H. split; [eapply gx_meta; eauto|]. eapply oi_upd; [exact O|exact H|]. intros c _ K _. split; [auto|apply Hm].
Qed.

Lemma px_state g i s g' : PX g -> s <> OPEN -> setState g i s = Ok g' -> PX g'.
Proof. intros P Hs H. eapply px_meta; [exact P| | |exact H]; [intros c; auto|cbn; congruence]. Qed.

Lemma px_lower g i c (u : F64) g' : PX g -> getCell g i = Ok c -> isOccupied c = false -> c_state c <> OPEN -> solveEikonal g i = Ok u ->
  c_val c = ninf \/ nltb u (c_val c) = true -> setArrivalTime g i u = Ok g' -> PX g'.
Proof.
  intros [G O] Hc Ho Hst Hu Hl H. split; [eapply gx_lower; eauto|]. eapply oi_upd; [exact O|exact H|].
  intros c' Hc' K _. assert (c' = c) by congruence. subst c'. cbn in K. congruence.
Qed.

(** an OPEN cell joins the band with the value computed for it *)
Lemma px_open g i c (u : F64) s g1 g2 : PX g -> getCell g i = Ok c -> isOccupied c = false -> c_state c = OPEN -> ~ In i init ->
  solveEikonal g i = Ok u -> s <> OPEN -> setState g i s = Ok g1 -> setArrivalTime g1 i u = Ok g2 -> PX g2.
Proof.
  intros P Hc Ho Hst Hni Hu Hs H1 H2. pose proof (px_state _ _ _ _ P Hs H1) as P1.
  pose proof (get_set_same _ _ _ _ _ H1 Hc) as Hc1.
  eapply px_lower; [exact P1|exact Hc1|exact Ho|exact Hs| |left; exact (proj2 P i c Hc Hst Hni)|exact H2].
  rewrite (alike_solve _ _ _ (alike_st _ _ _ _ H1)). exact Hu.
Qed.

(** *** FMM, any narrow band, any heuristic *)
Section FMM.
Variable HO : HeapOps F64.
Variable cfg : fmm_cfg (N := F64).

Lemma px_heur g j g' : PX g -> fmm_heur cfg g j = Ok g' -> PX g'.
Proof.
  intros P H. assert (K : forall hv, setHeuristicTime g j hv = Ok g' -> PX g').
  { intros hv K. eapply px_meta; [exact P| | |exact K]; [intros c; auto|auto]. }
  unfold fmm_heur in H. destruct (fc_strat cfg); [injection H as <-; exact P| |];
    (apply bind_ok in H; destruct H as [d [_ H]]); [apply bind_ok in H; destruct H as [c2 [_ H]]|]; eapply K; exact H.
Qed.

Lemma heur_cell g j g' i c : fmm_heur cfg g j = Ok g' -> getCell g i = Ok c ->
  exists c', getCell g' i = Ok c' /\ c_state c' = c_state c /\ c_val c' = c_val c /\ c_occ c' = c_occ c.
Proof.
  intros H Hc. assert (K : forall hv, setHeuristicTime g j hv = Ok g' -> exists c', getCell g' i = Ok c' /\ c_state c' = c_state c /\ c_val c' = c_val c /\ c_occ c' = c_occ c).
  { intros hv K. rewrite (updCell_get _ _ _ _ i K). destruct (j =? i); [|eauto]. rewrite Hc. eexists. split; [reflexivity|]. auto. }
  unfold fmm_heur in H. destruct (fc_strat cfg); [injection H as <-; eauto| |];
    (apply bind_ok in H; destruct H as [d [_ H]]); [apply bind_ok in H; destruct H as [c2 [_ H]]|]; eapply K; exact H.
Qed.

(** every initial point is settled or an obstacle *)
Definition SD (g : grid F64) : Prop := forall i c, In i init -> getCell g i = Ok c -> c_state c = FROZEN \/ isOccupied c = true.

Lemma nb_PX st j st' : PX (fs_g st) -> SD (fs_g st) -> fmm_neighbor HO cfg st j = Ok st' -> PX (fs_g st').
Proof.
  intros P D H. unfold fmm_neighbor in H. apply bind_ok in H. destruct H as [c [Hc H]].
  destruct (fmstate_eqb (c_state c) FROZEN) eqn:EF; cbn [orb] in H; [injection H as <-; exact P|].
  destruct (isOccupied c) eqn:EO; [injection H as <-; exact P|]. apply eqb_state_false in EF.
  assert (Hni : ~ In j init) by (intros K; destruct (D j c K Hc); congruence).
  apply bind_ok in H. destruct H as [t [Ht H]]. apply bind_ok in H. destruct H as [g1 [Hg1 H]]. apply bind_ok in H. destruct H as [c1 [Hc1 H]].
  pose proof (px_heur _ _ _ P Hg1) as P1. destruct (heur_cell _ _ _ _ _ Hg1 Hc) as [c1' [K1 [K2 [K3 K4]]]].
  assert (c1' = c1) by congruence. subst c1'. clear K1.
  assert (EO1 : isOccupied c1 = false) by (unfold isOccupied in *; rewrite K4; exact EO).
  assert (Ht1 : solveEikonal g1 j = Ok t) by (rewrite (alike_solve _ _ _ (fmm_heur_alike cfg _ _ _ Hg1)); exact Ht).
  destruct (fmstate_eqb (c_state c1) NARROW) eqn:EN.
  - apply eqb_state in EN. destruct (isTimeBetterThan t (c_val c1)) eqn:EB.
    + apply bind_ok in H. destruct H as [g2 [Hg2 H]]. apply bind_ok in H. destruct H as [h2 [_ H]]. injection H as <-. cbn [fs_g].
      eapply px_lower; [exact P1|exact Hc1|exact EO1|congruence|exact Ht1|right; apply (nl_better_lt _ F64_laws), EB|exact Hg2].
    + injection H as <-. exact P1.
  - apply eqb_state_false in EN. apply bind_ok in H. destruct H as [g2 [Hg2 H]]. apply bind_ok in H. destruct H as [g3 [Hg3 H]]. injection H as <-. cbn [fs_g].
    eapply px_open; [exact P1|exact Hc1|exact EO1|apply state_cases; congruence|exact Hni|exact Ht1| |exact Hg2|exact Hg3]. discriminate.
Qed.

Lemma px_cell g i : PX g -> 0 <= i < box_size dims -> exists c, getCell g i = Ok c.
Proof. intros [G _] Hi. apply (getCell_in dims); [|exact Hi]. exact (gx_ok dims init g0 Hg0 flo fhi XE Xm _ G). Qed.

Lemma nb_SD st j st' : PX (fs_g st) -> SD (fs_g st) -> fmm_neighbor HO cfg st j = Ok st' -> SD (fs_g st').
Proof.
  intros P D H i c' Hi Hc'. pose proof (fmm_neighbor_frame (fun _ => True) HO _ _ _ _ H) as F.
  destruct F as [_ [_ [_ [_ [_ F]]]]]. destruct (px_cell _ i P (Hrng i Hi)) as [c Hc].
  destruct (F i c Hc) as [c2 [A [B _]]]. assert (c2 = c') by congruence. subst c2.
  destruct (D i c Hi Hc) as [E|E]; [|right; unfold isOccupied in *; rewrite B; exact E].
  destruct (nb_states HO cfg _ _ _ H i c Hc) as [c3 [A3 [B3 _]]]. assert (c3 = c') by congruence. subst c3.
  destruct B3 as [B3|[-> [Ho _]]]; [left; congruence|]. unfold fmm_neighbor in H. rewrite Hc in H. cbn [bind] in H. rewrite E in H. cbn in H.
  injection H as <-. left. congruence.
Qed.

Lemma freeze_SD g m g' : SD g -> setState g m FROZEN = Ok g' -> SD g'.
Proof.
  intros D H i c Hi Hc. rewrite (updCell_get _ _ _ _ i H) in Hc. destruct (Z.eqb_spec m i) as [E|E]; [|exact (D i c Hi Hc)].
  destruct (getCell g i); [|discriminate]. injection Hc as <-. left. reflexivity.
Qed.

Lemma nbs_PX ns : forall st st', PX (fs_g st) -> SD (fs_g st) -> foldM (fmm_neighbor HO cfg) ns st = Ok st' -> PX (fs_g st') /\ SD (fs_g st').
Proof.
  induction ns as [|j ns IH]; intros st st' P D H; cbn [foldM] in H; [injection H as <-; auto|].
  apply bind_ok in H. destruct H as [s1 [H1 H2]]. eapply IH; [| |exact H2]; [eapply nb_PX; eauto|eapply nb_SD; eauto].
Qed.

Lemma step_PX st m st' : PX (fs_g st) -> (forall m h1 g1, hpop HO (key (fs_g st)) (fs_h st) = Some (m, h1) -> setState (fs_g st) m FROZEN = Ok g1 -> SD g1) ->
  fmm_step HO cfg st = Ok (Some (m, st')) -> PX (fs_g st') /\ SD (fs_g st').
Proof.
  intros P D H. unfold fmm_step in H. destruct (hpop HO (key (fs_g st)) (fs_h st)) as [[m' h1]|] eqn:Hpop; [|discriminate].
  apply bind_ok in H. destruct H as [ns [_ H]]. apply bind_ok in H. destruct H as [g1 [Hg1 H]]. apply bind_ok in H. destruct H as [st2 [Hf H]].
  injection H as -> ->. apply (nbs_PX ns (mkFst g1 h1) st'); [|eapply D; eauto|exact Hf]. cbn. eapply px_state; [exact P| |exact Hg1]. discriminate.
Qed.

Lemma loop_PX goal fuel : forall st log st' log', PX (fs_g st) ->
  (forall m h1 g1, hpop HO (key (fs_g st)) (fs_h st) = Some (m, h1) -> setState (fs_g st) m FROZEN = Ok g1 -> SD g1) ->
  fmm_loop HO fuel cfg goal st log = Ok (st', log') -> PX (fs_g st').
Proof.
  induction fuel as [|k IH]; intros st log st' log' P D H; cbn in H; [discriminate|].
  apply bind_ok in H. destruct H as [[[m s]|] [H1 H]]; [|injection H as <- <-; exact P].
  destruct (step_PX _ _ _ P D H1) as [P1 D1]. destruct (m =? goal); [injection H as <- <-; exact P1|].
  eapply IH; [exact P1| |exact H]. intros m2 h2 g2 _ K. eapply freeze_SD; eauto.
Qed.

(** during the initialisation *)
Definition PI (pre : list Z) (g : grid F64) : Prop := GI0 pre g /\ OI g.

Lemma pi_start : PI [] g0.
Proof. split; [apply gi0_start; assumption|]. intros i c Hc _ _. exact (Hfresh i c Hc). Qed.

Lemma pi_meta pre g i fn g' : PI pre g -> meta fn -> (forall c, c_state (fn c) = OPEN -> c_state c = OPEN) -> updCell g i fn = Ok g' -> PI pre g'.
Proof.
  intros [[F T V] O] Hm Hst H. assert (E : times64 g' = times64 g) by (eapply times64_upd_keep; [exact H|intros c; apply Hm]). split.
  - constructor.
    + eapply frame_trans; [exact F|]. eapply updCell_frame; [exact H|]. intros c _. destruct (Hm c) as [A [B C]]. auto.
    + eapply upd_times_ok64; [exact H|intros c; apply Hm|exact T].
    + intros j. rewrite E. apply V.
  - eapply oi_upd; [exact O|exact H|]. intros c _ K _. split; [auto|apply Hm].
Qed.

Lemma pi_src pre g i g' : PI pre g -> In i init -> setArrivalTime g i (n0 : F64) = Ok g' -> PI (pre ++ [i]) g'.
Proof.
  intros [G O] Hi H. destruct (gi0_src dims init Hrng g0 Hg0 pre g i G Hi) as [g2 [H2 G2]]. assert (g2 = g') by congruence. subst g2.
  split; [exact G2|]. eapply oi_upd; [exact O|exact H|]. intros c _ _ K. contradiction.
Qed.

Lemma pi_px g : PI init g -> PX g.
Proof. intros [G O]. split; [eapply gi0_gx; eauto|exact O]. Qed.

Lemma pi_heur pre g j g' : PI pre g -> fmm_heur cfg g j = Ok g' -> PI pre g'.
Proof.
  intros P H. assert (K : forall hv, setHeuristicTime g j hv = Ok g' -> PI pre g').
  { intros hv K. eapply pi_meta; [exact P| | |exact K]; [intros c; auto|auto]. }
  unfold fmm_heur in H. destruct (fc_strat cfg); [injection H as <-; exact P| |];
    (apply bind_ok in H; destruct H as [d [_ H]]); [apply bind_ok in H; destruct H as [c2 [_ H]]|]; eapply K; exact H.
Qed.

Lemma init_PI post : forall pre st st', init = pre ++ post -> PI pre (fs_g st) -> foldM (fmm_init1 HO cfg) post st = Ok st' -> PI init (fs_g st').
Proof.
  induction post as [|i post IH]; intros pre st st' E P H; cbn [foldM] in H; [injection H as <-; rewrite E, app_nil_r; exact P|].
  apply bind_ok in H. destruct H as [s1 [H1 H2]]. apply (IH (pre ++ [i]) s1 st'); [rewrite <- app_assoc; exact E| |exact H2].
  unfold fmm_init1 in H1. apply bind_ok in H1. destruct H1 as [ga [Ha H1]]. apply bind_ok in H1. destruct H1 as [gb [Hb H1]]. injection H1 as <-. cbn [fs_g].
  eapply pi_heur; [|exact Hb]. eapply pi_src; [exact P| |exact Ha]. rewrite E. apply in_or_app. right; left; reflexivity.
Qed.

Variable BL : BagLaws HO.

(** every cell of the band or accepted has a time *)
Definition HF (st : fmm_state HO) : Prop :=
  bwf BL (fs_h st) /\ (forall i, cst (fs_g st) i = Some NARROW -> bval BL (fs_h st) i) /\
  (forall i, In i (helems HO (fs_h st)) -> finT (fs_g st) i) /\
  (forall i c, getCell (fs_g st) i = Ok c -> c_state c <> OPEN -> finT (fs_g st) i).

Lemma heur_fin g j g' x : fmm_heur cfg g j = Ok g' -> (finT g x -> finT g' x) /\ cst g' x = cst g x.
Proof.
  intros H. assert (K : forall hv, setHeuristicTime g j hv = Ok g' -> (finT g x -> finT g' x) /\ cst g' x = cst g x).
  { intros hv K. split; [eapply fin_keep; [|exact K]; intros c; auto|]. eapply cst_keep; [|exact K]. reflexivity. }
  unfold fmm_heur in H. destruct (fc_strat cfg); [injection H as <-; auto| |];
    (apply bind_ok in H; destruct H as [d [_ H]]); [apply bind_ok in H; destruct H as [c2 [_ H]]|]; eapply K; exact H.
Qed.

Lemma cst_ok (g : grid F64) x s : cst g x = Some s -> exists c, getCell g x = Ok c /\ c_state c = s.
Proof. unfold cst. destruct (getCell g x) as [c|]; [|discriminate]. intros H. injection H as <-. eauto. Qed.

Lemma nb_HF m st j st' : adjacent dims m j -> PX (fs_g st) -> SD (fs_g st) -> HF st -> finT (fs_g st) m ->
  fmm_neighbor HO cfg st j = Ok st' -> HF st' /\ forall x, finT (fs_g st) x -> finT (fs_g st') x.
Proof.
  intros Ha P D [W [Nv [HE HN]]] Hm H. pose proof H as H'. unfold fmm_neighbor in H. apply bind_ok in H. destruct H as [c [Hc H]].
  destruct (fmstate_eqb (c_state c) FROZEN) eqn:EF; cbn [orb] in H; [injection H as <-; repeat split; auto|].
  destruct (isOccupied c) eqn:EO; [injection H as <-; repeat split; auto|]. apply eqb_state_false in EF.
  assert (Hni : ~ In j init) by (intros K; destruct (D j c K Hc); congruence).
  apply bind_ok in H. destruct H as [t [Ht H]]. apply bind_ok in H. destruct H as [g1 [Hg1 H]]. apply bind_ok in H. destruct H as [c1 [Hc1 H]].
  pose proof (px_heur _ _ _ P Hg1) as P1. destruct (heur_cell _ _ _ _ _ Hg1 Hc) as [c1' [K1 [K2 [K3 K4]]]].
  assert (c1' = c1) by congruence. subst c1'. clear K1.
  assert (EO1 : isOccupied c1 = false) by (unfold isOccupied in *; rewrite K4; exact EO).
  assert (Ht1 : solveEikonal g1 j = Ok t) by (rewrite (alike_solve _ _ _ (fmm_heur_alike cfg _ _ _ Hg1)); exact Ht).
  pose proof (fun x => proj1 (heur_fin _ _ _ x Hg1)) as F1. pose proof (fun x => proj2 (heur_fin _ _ _ x Hg1)) as C1.
  assert (HN1 : forall x, cst g1 x = Some NARROW \/ cst g1 x = Some FROZEN -> finT g1 x).
  { intros x Hx. rewrite C1 in Hx. apply F1. assert (K : exists s, cst (fs_g st) x = Some s /\ s <> OPEN) by (destruct Hx as [Hx|Hx]; eexists; (split; [exact Hx|discriminate])).
    destruct K as [s [K Ks]]. destruct (cst_ok _ _ _ K) as [cx [A B]]. apply (HN x cx A). congruence. }
  assert (NO : forall (g : grid F64) x cx, getCell g x = Ok cx -> c_state cx <> OPEN -> cst g x = Some NARROW \/ cst g x = Some FROZEN).
  { intros g x cx A B. rewrite (cst_get _ _ _ A). destruct (c_state cx); [congruence|auto|auto]. }
  destruct (fmstate_eqb (c_state c1) NARROW) eqn:EN.
  - apply eqb_state in EN. destruct (isTimeBetterThan t (c_val c1)) eqn:EB.
    + apply bind_ok in H. destruct H as [g2 [Hg2 H]]. apply bind_ok in H. destruct H as [h2 [Hh2 H]]. injection H as <-. cbn [fs_g fs_h] in *.
      destruct (fin_lower g1 j c1 t g2 (proj1 P1) Hc1 EO1 Ht1 (or_introl (nl_better_lt _ F64_laws _ _ EB)) Hg2) as [Fj Fx].
      assert (Vj : bval BL (fs_h st) j) by (apply Nv; rewrite (cst_get _ _ _ Hc); congruence).
      destruct (bl_incr _ BL (key g2) j (fs_h st) W Vj) as [h' [E' [W' [In' V']]]]. assert (h' = h2) by congruence. subst h'.
      assert (C2 : forall x, cst g2 x = cst (fs_g st) x) by (intros x; rewrite (cst_keep _ _ (fun c => with_val c t) _ x (fun _ => eq_refl) Hg2); apply C1).
      split; [|intros x Hx; apply Fx, F1, Hx]. split; [exact W'|]. split; [intros x Hx; apply V', Nv; rewrite <- C2; exact Hx|]. split.
      * intros x Hx. apply In' in Hx. apply Fx, F1, HE, Hx.
      * intros x cx A B. apply (NO g2 x cx A) in B. apply Fx, HN1. rewrite C2, <- C1 in B. exact B.
    + injection H as <-. cbn [fs_g fs_h] in *. split; [|exact F1]. split; [exact W|]. split; [intros x Hx; apply Nv; rewrite <- C1; exact Hx|]. split; [intros x Hx; apply F1, HE, Hx|].
      intros x cx A B. apply HN1. eapply NO; eauto.
  - apply eqb_state_false in EN. apply bind_ok in H. destruct H as [g2 [Hg2 H]]. apply bind_ok in H. destruct H as [g3 [Hg3 H]]. injection H as <-. cbn [fs_g fs_h] in *.
    assert (EOp : c_state c1 = OPEN) by (apply state_cases; congruence).
    pose proof (proj2 P1 j c1 Hc1 EOp Hni) as Ev.
    assert (F2 : forall x, finT g1 x -> finT g2 x) by (intros x; eapply fin_keep; [|exact Hg2]; intros cx; auto).
    assert (P2 : PX g2) by (eapply px_state; [exact P1| |exact Hg2]; discriminate).
    destruct (fin_lower g2 j _ t g3 (proj1 P2) (get_set_same _ _ _ _ _ Hg2 Hc1) EO1) as [Fj Fx].
    { rewrite (alike_solve _ _ _ (alike_st _ _ _ _ Hg2)). exact Ht1. }
    { right. split; [exact Ev|]. exists m. auto. }
    { exact Hg3. }
    destruct (bl_push _ BL (key g3) j (fs_h st) W) as [W' [Pm [Vj Vx]]].
    assert (C3 : forall x, cst g3 x = if j =? x then Some NARROW else cst (fs_g st) x).
    { intros x. rewrite (cst_keep _ _ (fun c => with_val c t) _ x (fun _ => eq_refl) Hg3), (cst_setState _ _ _ _ x Hg2), C1. reflexivity. }
    split; [|intros x Hx; apply Fx, F2, F1, Hx]. split; [exact W'|]. split; [|split].
    * intros x Hx. rewrite C3 in Hx. destruct (Z.eqb_spec j x) as [E|E]; [subst x; exact Vj|apply Vx, Nv, Hx].
    * intros x Hx. apply (Permutation_in _ Pm) in Hx. destruct Hx as [<-|Hx]; [exact Fj|apply Fx, F2, F1, HE, Hx].
    * intros x cx A B. apply (NO g3 x cx A) in B. rewrite C3 in B. destruct (Z.eqb_spec j x) as [E|E]; [subst x; exact Fj|].
      apply Fx, F2, HN1. rewrite C1. exact B.
Qed.

Lemma nbs_HF m ns : (forall j, In j ns -> adjacent dims m j) -> forall st st', PX (fs_g st) -> SD (fs_g st) -> HF st -> finT (fs_g st) m ->
  foldM (fmm_neighbor HO cfg) ns st = Ok st' -> HF st'.
Proof.
  induction ns as [|j ns IH]; intros Hl st st' P D F Hm H; cbn [foldM] in H; [injection H as <-; exact F|].
  apply bind_ok in H. destruct H as [s1 [H1 H2]].
  destruct (nb_HF m st j s1 (Hl j (or_introl eq_refl)) P D F Hm H1) as [F1 Fx].
  apply (IH (fun x K => Hl x (or_intror K)) s1 st'); [eapply nb_PX; eauto|eapply nb_SD; eauto|exact F1|apply Fx, Hm|exact H2].
Qed.

Lemma step_HF st m st' : PX (fs_g st) -> HF st ->
  (forall m h1 g1, hpop HO (key (fs_g st)) (fs_h st) = Some (m, h1) -> setState (fs_g st) m FROZEN = Ok g1 -> SD g1) ->
  fmm_step HO cfg st = Ok (Some (m, st')) -> HF st'.
Proof.
  intros P [W [Nv [HE HN]]] D H. unfold fmm_step in H. destruct (hpop HO (key (fs_g st)) (fs_h st)) as [[m' h1]|] eqn:Hpop; [|discriminate].
  apply bind_ok in H. destruct H as [ns [Hns H]]. apply bind_ok in H. destruct H as [g1 [Hg1 H]]. apply bind_ok in H. destruct H as [st2 [Hf H]].
  injection H as -> ->. destruct (bl_pop _ BL _ _ _ _ W Hpop) as [W1 [Pm V1]].
  assert (Fm : finT (fs_g st) m) by (apply HE; eapply Permutation_in; [symmetry; exact Pm|left; reflexivity]).
  assert (Hm : 0 <= m < box_size dims).
  { apply updCell_ok in Hg1. destruct Hg1 as [c [Hc _]]. apply getCell_range in Hc. destruct (gx_ok dims init g0 Hg0 flo fhi XE Xm _ (proj1 P)) as [_ <-]. exact Hc. }
  rewrite (proj1 (gx_ok dims init g0 Hg0 flo fhi XE Xm _ (proj1 P))), getNeighbors_eq in Hns by auto. injection Hns as <-.
  assert (P1 : PX g1) by (eapply px_state; [exact P| |exact Hg1]; discriminate).
  assert (Fk : forall x, finT (fs_g st) x -> finT g1 x) by (intros x; eapply fin_keep; [|exact Hg1]; intros cx; auto).
  apply (nbs_HF m (nbrs dims m)) with (st := mkFst g1 h1) (st' := st'); [|exact P1|eapply D; eauto| |apply Fk, Fm|exact Hf].
  - intros j K. apply nbrs_spec in K; auto.
  - split; [exact W1|]. cbn [fs_g fs_h]. split; [|split].
    + intros x Hx. rewrite (cst_setState _ _ _ _ x Hg1) in Hx. destruct (Z.eqb_spec m x) as [E|E]; [discriminate|]. apply V1; [congruence|apply Nv, Hx].
    + intros x Hx. apply Fk, HE. eapply Permutation_in; [symmetry; exact Pm|right; exact Hx].
    + intros x cx A B. rewrite (updCell_get _ _ _ _ x Hg1) in A. destruct (Z.eqb_spec m x) as [E|E]; [subst x; apply Fk, Fm|]. apply Fk. eapply HN; eauto.
Qed.

Lemma loop_HF goal fuel : forall st log st' log', PX (fs_g st) -> HF st ->
  (forall m h1 g1, hpop HO (key (fs_g st)) (fs_h st) = Some (m, h1) -> setState (fs_g st) m FROZEN = Ok g1 -> SD g1) ->
  fmm_loop HO fuel cfg goal st log = Ok (st', log') -> HF st'.
Proof.
  induction fuel as [|k IH]; intros st log st' log' P F D H; cbn in H; [discriminate|].
  apply bind_ok in H. destruct H as [[[m s]|] [H1 H]]; [|injection H as <- <-; exact F].
  destruct (step_PX _ _ _ P D H1) as [P1 D1]. pose proof (step_HF _ _ _ P F D H1) as F1. destruct (m =? goal); [injection H as <- <-; exact F1|].
  eapply IH; [exact P1|exact F1| |exact H]. intros m2 h2 g2 _ K. eapply freeze_SD; eauto.
Qed.

Lemma init_HF post : forall st st', HF st -> foldM (fmm_init1 HO cfg) post st = Ok st' -> HF st'.
Proof.
  induction post as [|i post IH]; intros st st' F H; cbn [foldM] in H; [injection H as <-; exact F|].
  apply bind_ok in H. destruct H as [s1 [H1 H2]]. apply (IH s1 st'); [|exact H2]. clear H2 IH.
  unfold fmm_init1 in H1. apply bind_ok in H1. destruct H1 as [ga [Ha H1]]. apply bind_ok in H1. destruct H1 as [gb [Hb H1]]. injection H1 as <-.
  destruct F as [W [Nv [HE HN]]]. destruct (bl_push _ BL (key gb) i (fs_h st) W) as [W' [Pm [Vj Vx]]].
  assert (Fa : finT ga i /\ forall x, finT (fs_g st) x -> finT ga x).
  { unfold finT. rewrite (times64_set _ _ _ 0 ga Ha Fz0). split; [rewrite upd_same; discriminate|]. intros x Hx. unfold upd. destruct (Z.eq_dec x i); [discriminate|exact Hx]. }
  destruct Fa as [Fi Fa]. pose proof (fun x => proj1 (heur_fin _ _ _ x Hb)) as Fb.
  assert (Cb : forall x, cst gb x = cst (fs_g st) x) by (intros x; rewrite (proj2 (heur_fin _ _ _ x Hb)); exact (cst_keep _ _ (fun c => with_val c n0) _ x (fun _ => eq_refl) Ha)).
  split; [exact W'|]. cbn [fs_g fs_h]. split; [intros x Hx; apply Vx, Nv; rewrite <- Cb; exact Hx|]. split.
  - intros x Hx. apply (Permutation_in _ Pm) in Hx. destruct Hx as [<-|Hx]; [apply Fb, Fi|apply Fb, Fa, HE, Hx].
  - intros x cx A B. apply Fb, Fa. pose proof (cst_get _ _ _ A) as K. rewrite Cb in K. destruct (cst_ok _ _ _ K) as [c0 [A0 B0]]. apply (HN x c0 A0). congruence.
Qed.

(** the initial points are out of the way after the first pop *)
Lemma first_pop st : (forall i, In i init -> ~ free g0 i) \/ (exists s, init = [s]) ->
  foldM (fmm_init1 HO cfg) init (mkFst g0 (hempty HO)) = Ok st -> PX (fs_g st) ->
  forall m h1 g1, hpop HO (key (fs_g st)) (fs_h st) = Some (m, h1) -> setState (fs_g st) m FROZEN = Ok g1 -> SD g1.
Proof.
  intros Hq H0 P0 m h1 g1 Hpop Hg1. destruct Hq as [Hq|[s Hs]].
  - intros i c Hi Hc. right. destruct (isOccupied c) eqn:Eo; [reflexivity|exfalso]. apply (Hq i Hi).
    assert (Hf1 : free (fs_g st) i).
    { rewrite (updCell_get _ _ _ _ i Hg1) in Hc. destruct (Z.eqb_spec m i) as [E|E]; [|exists c; auto].
      destruct (getCell (fs_g st) i) as [c0|] eqn:Ec; [|discriminate]. injection Hc as <-. exists c0. auto. }
    destruct P0 as [[F _ _ _] _]. exact (frame_free_inv _ _ _ _ F Hf1).
  - intros i c Hi Hc. left. rewrite Hs in Hi, H0. destruct Hi as [<-|[]]. cbn [foldM] in H0. apply bind_ok in H0. destruct H0 as [s1 [H1 H2]]. injection H2 as ->.
    unfold fmm_init1 in H1. apply bind_ok in H1. destruct H1 as [ga [_ H1]]. apply bind_ok in H1. destruct H1 as [gb [_ H1]]. injection H1 as <-. cbn [fs_g fs_h] in *.
    destruct (bl_empty _ BL) as [W0 E0]. destruct (bl_push _ BL (key gb) s _ W0) as [W1 [Pm _]]. rewrite E0 in Pm.
    destruct (bl_pop _ BL _ _ _ _ W1 Hpop) as [_ [Pm2 _]].
    assert (Em : m = s). { apply (Permutation_in m) in Pm; [destruct Pm as [E|[]]; auto|]. eapply Permutation_in; [symmetry; exact Pm2|left; reflexivity]. }
    subst m. rewrite (updCell_get _ _ _ _ s Hg1), Z.eqb_refl in Hc. destruct (getCell gb s); [|discriminate]. injection Hc as <-. reflexivity.
Qed.

Theorem fmm_run_HF goal fuel st log : (forall i, In i init -> ~ free g0 i) \/ (exists s, init = [s]) ->
  fmm_run HO fuel cfg goal init g0 (hempty HO) = Ok (st, log) -> GX (fs_g st) /\ HF st.
Proof.
  intros Hq H. unfold fmm_run in H. apply bind_ok in H. destruct H as [s0 [H0 H]].
  assert (P0 : PX (fs_g s0)) by (apply pi_px; apply (init_PI init [] (mkFst g0 (hempty HO)) s0 eq_refl pi_start H0)).
  assert (F0 : HF s0).
  { apply (init_HF init (mkFst g0 (hempty HO)) s0); [|exact H0]. destruct (bl_empty _ BL) as [W0 E0]. split; [exact W0|]. cbn [fs_g fs_h]. rewrite E0. split; [|split].
    - intros i Hi. destruct (cst_ok _ _ _ Hi) as [c [A B]]. rewrite (Hopen i c A) in B. discriminate.
    - intros i [].
    - intros i c A B. rewrite (Hopen i c A) in B. congruence. }
  pose proof (first_pop s0 Hq H0 P0) as D. split; [exact (proj1 (loop_PX goal fuel s0 [] st log P0 D H))|exact (loop_HF goal fuel s0 [] st log P0 F0 D H)].
Qed.
End FMM.

(** *** UFMM *)
Section UFMM.
Hypothesis Hsep : separated dims g0 init.
Hypothesis Hnd : NoDup init.
Notation MI := (MI dims init g0).

Lemma px_bucket g i b g' : PX g -> setBucket g i b = Ok g' -> PX g'.
Proof. intros P H. eapply px_meta; [exact P| | |exact H]; [intros c; auto|auto]. Qed.

Lemma unb_PX s j s' m log rem : MI (uf_g s) (uf_q s) log rem [m] -> PX (uf_g s) -> adjacent dims m j -> ufmm_neighbor s j = Ok s' -> PX (uf_g s').
Proof.
  intros I P Ha H. pose proof I as [Iev _ _ _ _ _ _ _ Ifr _ Isrc _ Ifst _ _].
  destruct (nb_cases _ _ _ H) as [c Hc Hcs ->|c t Hc Ho Hst Hs Hb ->|c t g1 b Hc Ho Hst Hs Hb H1 H2 H3|c t g1 g2 b Hc Ho Hst Hs H1 H2 H3 H4]; auto.
  - eapply px_bucket; [|exact H3]. eapply px_lower; [exact P|exact Hc|exact Ho|congruence|exact Hs|right; apply (nl_better_lt _ F64_laws), Hb|exact H1].
  - eapply px_bucket; [|exact H4]. apply (px_open _ j c t NARROW g1 g2 P Hc Ho Hst); [|exact Hs|discriminate|exact H1|exact H2].
    assert (Hfree : free g0 j) by (apply (ev_free_inv init _ _ _ Iev); exists c; auto).
    intros K. destruct (Isrc j K) as [K1|K1].
    + assert (Hm : In m init) by (apply Ifst; [intros E; rewrite E in K1; destruct K1|left; reflexivity]). exact (Hsep m j Hm K Ha Hfree).
    + apply Ifr in K1. rewrite (cst_get _ _ _ Hc), Hst in K1. discriminate.
Qed.

Lemma unbs_PX m log rem ns : (forall x, In x ns -> adjacent dims m x) -> forall s s', MI (uf_g s) (uf_q s) log rem [m] -> PX (uf_g s) ->
  foldM ufmm_neighbor ns s = Ok s' -> PX (uf_g s').
Proof.
  induction ns as [|j ns IH]; intros Hl s s' I P H; cbn [foldM] in H; [injection H as <-; exact P|].
  apply bind_ok in H. destruct H as [s1 [H1 H2]]. pose proof (Hl j (or_introl eq_refl)) as Ha.
  destruct (MI_neighbor dims init g0 Hg0 Hsep _ _ _ _ _ _ I Ha H1) as [I1 _].
  apply (IH (fun x K => Hl x (or_intror K)) s1 s' I1); [|exact H2]. exact (unb_PX _ _ _ _ _ _ I P Ha H1).
Qed.

Lemma ustep_PX s log rem m s' : MI (uf_g s) (uf_q s) log rem [] -> PX (uf_g s) -> ufmm_step s = Ok (m, s') -> PX (uf_g s').
Proof.
  intros I P H. unfold ufmm_step in H. apply bind_ok in H. destruct H as [[q1 m'] [Ht H]].
  apply bind_ok in H. destruct H as [g1 [Hs H]]. apply bind_ok in H. destruct H as [ns [Hns H]].
  apply bind_ok in H. destruct H as [s2 [Hf H]]. apply bind_ok in H. destruct H as [q3 [Hpq H]]. injection H as -> <-. cbn [uf_g].
  destruct (MI_top dims init g0 Hg0 _ _ _ _ _ _ _ I Ht Hs) as [rem' [I1 [Hm _]]].
  pose proof (mi_grid dims init g0 Hg0 _ _ _ _ _ I1) as Hg1. rewrite (proj1 Hg1), getNeighbors_eq in Hns by (auto; lia). injection Hns as <-.
  apply (unbs_PX m log rem' (nbrs dims m)) with (s := mkUf g1 q1) (s' := s2); [|exact I1| |exact Hf].
  - intros x K. apply nbrs_spec in K; auto.
  - cbn. eapply px_state; [exact P| |exact Hs]. discriminate.
Qed.

Lemma uloop_PX goal fuel : forall s log rem s' log', MI (uf_g s) (uf_q s) log rem [] -> PX (uf_g s) ->
  ufmm_loop fuel goal s log = Ok (s', log') -> PX (uf_g s').
Proof.
  induction fuel as [|k IH]; intros s log rem s' log' I P H; cbn [ufmm_loop] in H;
    (destruct (uq_empty (uf_q s)); [injection H as <- <-; exact P|]); [discriminate|].
  apply bind_ok in H. destruct H as [[m s1] [Hs H]]. destruct (MI_step dims Hd2 Hlt init g0 Hg0 Hsep _ _ _ _ _ I Hs) as [rem1 [I1 _]].
  pose proof (ustep_PX _ _ _ _ _ I P Hs) as P1. destruct (m =? goal); [injection H as <- <-; exact P1|]. eapply IH; eauto.
Qed.

Lemma uinit_PI post : forall pre s s', init = pre ++ post -> PI pre (uf_g s) ->
  foldM (fun s i => g1 <- setArrivalTime (uf_g s) i n0 ;; uf_push (mkUf g1 (uf_q s)) i) post s = Ok s' -> PI init (uf_g s').
Proof.
  induction post as [|i post IH]; intros pre st st' E P H; cbn [foldM] in H; [injection H as <-; rewrite E, app_nil_r; exact P|].
  apply bind_ok in H. destruct H as [s1 [H1 H2]]. apply (IH (pre ++ [i]) s1 st'); [rewrite <- app_assoc; exact E| |exact H2].
  apply bind_ok in H1. destruct H1 as [ga [Ha H1]]. unfold uf_push in H1. cbn [uf_g uf_q] in H1. apply bind_ok in H1. destruct H1 as [t [_ H1]].
  apply bind_ok in H1. destruct H1 as [[q b] [_ H1]]. apply bind_ok in H1. destruct H1 as [gb [Hb H1]]. injection H1 as <-. cbn [uf_g].
  eapply pi_meta; [| | |exact Hb]; [|intros c; auto|auto]. eapply pi_src; [exact P| |exact Ha]. rewrite E. apply in_or_app. right; left; reflexivity.
Qed.

(** every cell of the band or accepted has a time *)
Definition UF (g : grid F64) : Prop := forall i s, cst g i = Some s -> s <> OPEN -> finT g i.

Lemma unb_UF s j s' m log rem : MI (uf_g s) (uf_q s) log rem [m] -> PX (uf_g s) -> UF (uf_g s) -> adjacent dims m j -> ufmm_neighbor s j = Ok s' -> UF (uf_g s').
Proof.
  intros I P U Ha H. pose proof I as [Iev _ _ _ _ _ _ _ Ifr _ Isrc _ Ifst _ _].
  assert (Fm : finT (uf_g s) m) by (apply (U m FROZEN); [apply Ifr; left; reflexivity|discriminate]).
  destruct (nb_cases _ _ _ H) as [c Hc Hcs ->|c t Hc Ho Hst Hs Hb ->|c t g1 b Hc Ho Hst Hs Hb H1 H2 H3|c t g1 g2 b Hc Ho Hst Hs H1 H2 H3 H4]; auto.
  - destruct (fin_lower (uf_g s) j c t g1 (proj1 P) Hc Ho Hs (or_introl (nl_better_lt _ F64_laws _ _ Hb)) H1) as [Fj Fx].
    intros x sx Hx Hn. eapply (fin_keep g1); [|exact H3|]; [intros cx; auto|]. apply Fx, (U x sx); [|exact Hn].
    rewrite <- Hx, (cst_keep _ _ (fun c => with_bucket c b) _ x (fun _ => eq_refl) H3). symmetry. exact (cst_keep _ _ (fun c => with_val c t) _ x (fun _ => eq_refl) H1).
  - assert (Hfree : free g0 j) by (apply (ev_free_inv init _ _ _ Iev); exists c; auto).
    assert (Hni : ~ In j init).
    { intros K. destruct (Isrc j K) as [K1|K1].
      - assert (Hm : In m init) by (apply Ifst; [intros E; rewrite E in K1; destruct K1|left; reflexivity]). exact (Hsep m j Hm K Ha Hfree).
      - apply Ifr in K1. rewrite (cst_get _ _ _ Hc), Hst in K1. discriminate. }
    assert (F1 : forall x, finT (uf_g s) x -> finT g1 x) by (intros x; eapply fin_keep; [|exact H1]; intros cx; auto).
    assert (P1 : PX g1) by (eapply px_state; [exact P| |exact H1]; discriminate).
    destruct (fin_lower g1 j _ t g2 (proj1 P1) (get_set_same _ _ _ _ _ H1 Hc) Ho) as [Fj Fx].
    { rewrite (alike_solve _ _ _ (alike_st _ _ _ _ H1)). exact Hs. }
    { right. split; [exact (proj2 P j c Hc Hst Hni)|]. exists m. auto. }
    { exact H2. }
    intros x sx Hx Hn. eapply (fin_keep g2); [|exact H4|]; [intros cx; auto|].
    rewrite (cst_keep _ _ (fun c => with_bucket c b) _ x (fun _ => eq_refl) H4), (cst_keep _ _ (fun c => with_val c t) _ x (fun _ => eq_refl) H2), (cst_setState _ _ _ _ x H1) in Hx.
    destruct (Z.eqb_spec j x) as [E|E]; [subst x; exact Fj|]. apply Fx, F1, (U x sx Hx Hn).
Qed.

Lemma unbs_UF m log rem ns : (forall x, In x ns -> adjacent dims m x) -> forall s s', MI (uf_g s) (uf_q s) log rem [m] -> PX (uf_g s) -> UF (uf_g s) ->
  foldM ufmm_neighbor ns s = Ok s' -> UF (uf_g s').
Proof.
  induction ns as [|j ns IH]; intros Hl s s' I P U H; cbn [foldM] in H; [injection H as <-; exact U|].
  apply bind_ok in H. destruct H as [s1 [H1 H2]]. pose proof (Hl j (or_introl eq_refl)) as Ha.
  destruct (MI_neighbor dims init g0 Hg0 Hsep _ _ _ _ _ _ I Ha H1) as [I1 _].
  apply (IH (fun x K => Hl x (or_intror K)) s1 s' I1); [exact (unb_PX _ _ _ _ _ _ I P Ha H1)|exact (unb_UF _ _ _ _ _ _ I P U Ha H1)|exact H2].
Qed.

Lemma ustep_UF s log rem m s' : MI (uf_g s) (uf_q s) log rem [] -> PX (uf_g s) -> UF (uf_g s) -> ufmm_step s = Ok (m, s') -> UF (uf_g s').
Proof.
  intros I P U H. unfold ufmm_step in H. apply bind_ok in H. destruct H as [[q1 m'] [Ht H]].
  apply bind_ok in H. destruct H as [g1 [Hs H]]. apply bind_ok in H. destruct H as [ns [Hns H]].
  apply bind_ok in H. destruct H as [s2 [Hf H]]. apply bind_ok in H. destruct H as [q3 [Hpq H]]. injection H as -> <-. cbn [uf_g].
  destruct (MI_top dims init g0 Hg0 _ _ _ _ _ _ _ I Ht Hs) as [rem' [I1 [Hm [_ [_ [M1 M2]]]]]].
  pose proof (mi_grid dims init g0 Hg0 _ _ _ _ _ I1) as Hg1. rewrite (proj1 Hg1), getNeighbors_eq in Hns by (auto; lia). injection Hns as <-.
  assert (Fm : finT (uf_g s) m).
  { destruct rem as [|x rem0].
    - destruct (M2 eq_refl) as [_ K]. apply (U m NARROW K). discriminate.
    - destruct (M1 ltac:(discriminate)) as [_ K]. destruct (mi_rem _ _ _ _ _ _ _ _ I m K) as [Ki _]. unfold finT. rewrite (fs_src _ _ _ _ _ (gx_s _ _ _ _ _ _ _ _ (proj1 P)) m Ki). discriminate. }
  apply (unbs_UF m log rem' (nbrs dims m)) with (s := mkUf g1 q1) (s' := s2); [|exact I1| | |exact Hf].
  - intros x K. apply nbrs_spec in K; auto.
  - cbn. eapply px_state; [exact P| |exact Hs]. discriminate.
  - cbn. intros x sx Hx Hn. eapply (fin_keep (uf_g s)); [|exact Hs|]; [intros cx; auto|]. rewrite (cst_setState _ _ _ _ x Hs) in Hx.
    destruct (Z.eqb_spec m x) as [E|E]; [subst x; exact Fm|exact (U x sx Hx Hn)].
Qed.

Lemma uloop_UF goal fuel : forall s log rem s' log', MI (uf_g s) (uf_q s) log rem [] -> PX (uf_g s) -> UF (uf_g s) ->
  ufmm_loop fuel goal s log = Ok (s', log') -> UF (uf_g s').
Proof.
  induction fuel as [|k IH]; intros s log rem s' log' I P U H; cbn [ufmm_loop] in H;
    (destruct (uq_empty (uf_q s)); [injection H as <- <-; exact U|]); [discriminate|].
  apply bind_ok in H. destruct H as [[m s1] [Hs H]]. destruct (MI_step dims Hd2 Hlt init g0 Hg0 Hsep _ _ _ _ _ I Hs) as [rem1 [I1 _]].
  pose proof (ustep_PX _ _ _ _ _ I P Hs) as P1. pose proof (ustep_UF _ _ _ _ _ I P U Hs) as U1.
  destruct (m =? goal); [injection H as <- <-; exact U1|]. eapply IH; eauto.
Qed.

Lemma uinit_cst x post : forall s s',
  foldM (fun s i => g1 <- setArrivalTime (uf_g s) i (n0 : F64) ;; uf_push (mkUf g1 (uf_q s)) i) post s = Ok s' -> cst (uf_g s') x = cst (uf_g s) x.
Proof.
  induction post as [|i post IH]; intros st st' H; cbn [foldM] in H; [injection H as <-; reflexivity|].
  apply bind_ok in H. destruct H as [s1 [H1 H2]]. rewrite (IH s1 st' H2). clear H2.
  apply bind_ok in H1. destruct H1 as [ga [Ha H1]]. unfold uf_push in H1. cbn [uf_g uf_q] in H1. apply bind_ok in H1. destruct H1 as [t [_ H1]].
  apply bind_ok in H1. destruct H1 as [[q b] [_ H1]]. apply bind_ok in H1. destruct H1 as [gb [Hb H1]]. injection H1 as <-. cbn [uf_g].
  rewrite (cst_keep _ _ (fun c => with_bucket c b) _ x (fun _ => eq_refl) Hb). exact (cst_keep _ _ (fun c => with_val c n0) _ x (fun _ => eq_refl) Ha).
Qed.

Theorem ufmm_run_PX goal fuel q s log : UI q -> bag q = [] -> uq_size q < 4294967296 ->
  cast_floor_u32 ((n0 - n0) * nofZ (uq_size q) / uq_inc q)%num = Ok 0 ->
  ufmm_run fuel goal init g0 q = Ok (s, log) -> GX (uf_g s) /\ UF (uf_g s).
Proof.
  intros U Eb Hsz Hc H. unfold ufmm_run in H. apply bind_ok in H. destruct H as [s0 [H1 H2]].
  destruct (MI_init dims init g0 Hg0 Hsep Hrng Hopen Hnd q s0 U Eb Hsz Hc H1) as [I _].
  assert (P : PX (uf_g s0)) by (apply pi_px; exact (uinit_PI init [] (mkUf g0 q) s0 eq_refl pi_start H1)).
  split; [apply (uloop_PX goal fuel s0 [] (rev init) s log I P H2)|]. apply (uloop_UF goal fuel s0 [] (rev init) s log I P); [|exact H2].
  intros x sx Hx Hn. exfalso. apply Hn. rewrite (uinit_cst x init (mkUf g0 q) s0 H1) in Hx. cbn [uf_g] in Hx. unfold cst in Hx.
  destruct (getCell g0 x) as [c|] eqn:E; [|discriminate]. injection Hx as <-. exact (Hopen x c E).
Qed.
End UFMM.

(** *** GMM, one initial point *)
Section GMM.
Variable src : Z.
Hypothesis Hone : init = [src].

Lemma gmm_first_GX tm g i g' : GX g -> gmm_first tm g i = Ok g' -> GX g'.
Proof.
  unfold gmm_first. intros G H. apply bind_ok in H. destruct H as [ti [_ H]]. destruct (nleb ti tm); [|injection H as <-; exact G].
  apply bind_ok in H. destruct H as [ns [_ H]].
  refine (foldM_inv_partial GX _ _ _ _ G _ H).
  intros g1 j g2 _ G1 Hg. apply bind_ok in Hg. destruct Hg as [c [Hc Hg]]. destruct (gmm_skip c) eqn:Es; [injection Hg as <-; exact G1|].
  apply bind_ok in Hg. destruct Hg as [t [Ht Hg]]. destruct (nltb t (c_val c)) eqn:El; [|injection Hg as <-; exact G1].
  apply gmm_skip_occ in Es. eapply gx_lower; eauto.
Qed.

Lemma gmm_second_nb_GX s j s' : GX (fst s) -> gmm_second_nb s j = Ok s' -> GX (fst s').
Proof.
  destruct s as [g p]. unfold gmm_second_nb. cbn [fst]. intros G H. apply bind_ok in H. destruct H as [c [Hc H]].
  destruct (gmm_skip c) eqn:Es; [injection H as <-; exact G|]. apply gmm_skip_occ in Es.
  apply bind_ok in H. destruct H as [t [Ht H]]. apply bind_ok in H. destruct H as [g1 [H1 H]].
  assert (G1 : GX g1) by (destruct (nltb t (c_val c)) eqn:El; [eapply gx_lower; eauto|injection H1 as <-; exact G]).
  destruct (fmstate_eqb (c_state c) OPEN); [|injection H as <-; exact G1]. apply bind_ok in H. destruct H as [g2 [H2 H]]. injection H as <-. cbn.
  eapply gx_meta; [exact G1| |exact H2]. intros x; auto.
Qed.

Lemma gmm_second_GX tm goal l : forall g kept pushed stop r, GX g -> gmm_second tm goal g kept l pushed stop = Ok r -> GX (fst (fst r)).
Proof.
  induction l as [|i l IH]; intros g kept pushed stop r G H; cbn [gmm_second] in H; [injection H as <-; exact G|].
  apply bind_ok in H. destruct H as [ti [_ H]]. destruct (nleb ti tm); [|eapply IH; eauto].
  apply bind_ok in H. destruct H as [ns [_ H]]. apply bind_ok in H. destruct H as [[g1 p1] [H1 H]]. apply bind_ok in H. destruct H as [g2 [H2 H]].
  assert (G1 : GX g1).
  { apply (foldM_inv_partial (fun s => GX (fst s)) _ _ _ (g1, p1)) with (3 := H1); [exact G|]. intros s j s1 _ Hs Hj. eapply gmm_second_nb_GX; eauto. }
  eapply IH; [|exact H]. eapply gx_meta; [exact G1| |exact H2]. intros x; auto.
Qed.

Lemma gmm_loop_GX fuel dt goal : forall s stop s', GX (gm_g s) -> gmm_loop fuel dt goal s stop = Ok s' -> GX (gm_g s').
Proof.
  induction fuel as [|k IH]; intros s stop s' G H; cbn [gmm_loop] in H;
    (destruct stop; [injection H as <-; exact G|]); (destruct (gm_l s) as [|x l] eqn:El; [injection H as <-; exact G|]); [discriminate|].
  apply bind_ok in H. destruct H as [g1 [H1 H]]. apply bind_ok in H. destruct H as [[[g2 l2] stop2] [H2 H]].
  eapply IH; [|exact H]. cbn. apply gmm_second_GX in H2; [exact H2|].
  refine (foldM_inv_partial GX _ _ _ _ G _ H1). intros g3 i g4 _ G3 H3. eapply gmm_first_GX; eauto.
Qed.

Theorem gmm_run_GX fuel dt goal s : gmm_run fuel dt goal init g0 = Ok s -> GX (gm_g s).
Proof.
  intros H. unfold gmm_run in H. apply bind_ok in H. destruct H as [s0 [H0 H]]. eapply gmm_loop_GX; [|exact H]. clear H s.
  rewrite Hone in H0. cbn [foldM] in H0. apply bind_ok in H0. destruct H0 as [s1 [H1 H2]]. injection H2 as ->.
  unfold gmm_init1 in H1. apply bind_ok in H1. destruct H1 as [g1 [H1 H]]. apply bind_ok in H. destruct H as [g2 [H2 H]]. apply bind_ok in H. destruct H as [ns [Hns H]].
  assert (Hsi : In src init) by (rewrite Hone; left; reflexivity).
  assert (P1 : PI init g1). { pose proof (pi_src [] _ _ _ pi_start Hsi H1) as K. cbn [app] in K. rewrite Hone in *. exact K. }
  assert (P2 : PX g2) by (eapply px_state; [apply pi_px, P1| |exact H2]; discriminate).
  pose proof (gx_ok dims init g0 Hg0 flo fhi XE Xm _ (proj1 P2)) as Hg2.
  rewrite (proj1 Hg2), getNeighbors_eq in Hns by (auto; apply Hrng, Hsi). injection Hns as <-.
  (* neighbours not yet visited are still OPEN *)
  assert (Hgo : forall l (s : gmm_state (N := F64)), NoDup l -> ~ In src l -> PX (gm_g s) ->
    (forall x c, In x l -> getCell (gm_g s) x = Ok c -> c_state c = OPEN) ->
    forall s', foldM (fun s j =>
           c <- getCell (gm_g s) j ;;
           if fmstate_eqb (c_state c) FROZEN || isOccupied c then Ok s
           else
             t <- solveEikonal (gm_g s) j ;;
             let tm' := if nltb t (gm_tm s) then t else gm_tm s in
             ga <- setArrivalTime (gm_g s) j t ;;
             gb <- setState ga j NARROW ;;
             Ok (mkGmm gb (gm_l s ++ [j]) tm')) l s = Ok s' -> GX (gm_g s')).
  { induction l as [|j l IH]; intros s Hndl Hsl P Hl s' Hf; cbn [foldM] in Hf; [injection Hf as <-; apply P|].
    inversion Hndl as [|? ? Hj Hndl']; subst. apply bind_ok in Hf. destruct Hf as [sa [Ha Hf]].
    apply bind_ok in Ha. destruct Ha as [c [Hc Ha]]. pose proof (Hl j c (or_introl eq_refl) Hc) as Eo. rewrite Eo in Ha. cbn [fmstate_eqb orb] in Ha.
    destruct (isOccupied c) eqn:EO.
    { injection Ha as <-. eapply IH; [exact Hndl'|intros K; apply Hsl; right; exact K|exact P|intros x cx K; apply Hl; right; exact K|exact Hf]. }
    apply bind_ok in Ha. destruct Ha as [t [Ht Ha]]. cbn zeta in Ha. apply bind_ok in Ha. destruct Ha as [ga [Hga Ha]]. apply bind_ok in Ha. destruct Ha as [gb [Hgb Ha]]. injection Ha as <-.
    assert (Hni : ~ In j init) by (rewrite Hone; intros [K|[]]; apply Hsl; left; congruence).
    assert (Ga : GX ga) by (eapply gx_lower; [apply P|exact Hc|exact EO|exact Ht|left; exact (proj2 P j c Hc Eo Hni)|exact Hga]).
    assert (Gb : GX gb) by (eapply gx_meta; [exact Ga| |exact Hgb]; intros x; auto).
    eapply (IH (mkGmm gb (gm_l s ++ [j]) _)); [exact Hndl'|intros K; apply Hsl; right; exact K| | |exact Hf]; cbn [gm_g].
    - split; [exact Gb|]. intros x cx Hcx Hst Hnx. rewrite (updCell_get _ _ _ _ x Hgb) in Hcx. destruct (Z.eqb_spec j x) as [E|E].
      + destruct (getCell ga x); [|discriminate]. injection Hcx as <-. discriminate Hst.
      + rewrite (updCell_get _ _ _ _ x Hga) in Hcx. destruct (Z.eqb_spec j x) as [E'|_]; [contradiction|]. exact (proj2 P x cx Hcx Hst Hnx).
    - intros x cx K Hcx. assert (E : j <> x) by (intros ->; contradiction).
      rewrite (updCell_get _ _ _ _ x Hgb) in Hcx. destruct (Z.eqb_spec j x) as [E'|_]; [contradiction|].
      rewrite (updCell_get _ _ _ _ x Hga) in Hcx. destruct (Z.eqb_spec j x) as [E'|_]; [contradiction|]. exact (Hl x cx (or_intror K) Hcx). }
  apply (Hgo (nbrs dims src) (mkGmm g2 [] ninf)) with (s' := s0); [| |exact P2| |exact H].
  - apply nbrs_NoDup; auto.
  - intros K. apply nbrs_spec in K; auto. exact (adjacent_irrefl _ _ K).
  - cbn [gm_g]. intros x c K Hc. rewrite (updCell_get _ _ _ _ x H2) in Hc. destruct (Z.eqb_spec src x) as [E|E].
    { exfalso. subst x. apply nbrs_spec in K; auto. exact (adjacent_irrefl _ _ K). }
    rewrite (updCell_get _ _ _ _ x H1) in Hc. destruct (Z.eqb_spec src x) as [E'|_]; [contradiction|]. exact (Hopen x c Hc).
Qed.
End GMM.
End EX.

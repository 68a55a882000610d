(** Prop_Adjacent.v - property theorems C111: initial points next to one another. FSM, LSM, DDQM
    and GMM leave every one of them at time zero; FMM and SFMM leave one of two free neighbours
    later than zero, FIM the one given last. *)
From Coq Require Import Reals Lra.
From Flocq Require Import Core IEEE754.BinarySingleNaN.
From Verif Require Import Base BaseFacts Num NumXR NumF64 NumLaws Grid GridFacts GridUpd GridMore Spec Obs Eikonal
  FMMModel HeapRef HeapLaws SweepModel QueueModel UntidyModel EikR Solution XGrid FMMAbs Relax FMMX SweepX Frame FMMStruct FMMPrefix BagHeap Term SFMMStruct Evolve Bound StarX Examples
  FloatOps FloatUpd FloatAbs FloatGrid Exact
  Prop_FMM Prop_Sweep Prop_Bound Prop_Float Prop_SFMM Prop_Sign Prop_FIM.
Open Scope Z_scope.

(** ** Specification *)
Definition all_at_zero {N : Num} (init : list Z) (g : grid N) : Prop := forall i, In i init -> time_is g i n0.
(** two free initial points next to one another *)
Definition neighbours (dims : list Z) (g : grid XR) (init : list Z) (a b : Z) : Prop :=
  In a init /\ In b init /\ adjacent dims a b /\ free g a /\ free g b.

(** ** GMM, any arithmetic *)
Section G.
Context {N : Num}.
Definition pin (g : grid N) (i : Z) : Prop := exists c, getCell g i = Ok c /\ c_state c = FROZEN /\ c_val c = n0.

Lemma pin_upd g j f g' i : updCell g j f = Ok g' -> pin g i ->
  (forall c, getCell g j = Ok c -> c_state c = FROZEN -> c_state (f c) = FROZEN /\ (c_val (f c) = c_val c)) -> pin g' i.
Proof.
  intros H [c [Hc [Hs Hv]]] Hf. unfold pin. rewrite (updCell_get _ _ _ _ i H). destruct (Z.eqb_spec j i) as [->|Hne].
  - rewrite Hc. exists (f c). destruct (Hf c Hc Hs) as [A B]. split; [reflexivity|]. split; congruence.
  - exists c. auto.
Qed.
Lemma pin_st g j g' i : setState g j FROZEN = Ok g' -> pin g i -> pin g' i.
Proof. intros H P. eapply pin_upd; [exact H|exact P|]. intros c _ _. split; reflexivity. Qed.
Lemma pin_live g j f g' i c : updCell g j f = Ok g' -> getCell g j = Ok c -> c_state c <> FROZEN -> pin g i -> pin g' i.
Proof. intros H Hc Hn P. eapply pin_upd; [exact H|exact P|]. intros c2 Hc2 K. congruence. Qed.
Lemma pin_val g j t g' i c : setArrivalTime g j t = Ok g' -> getCell g j = Ok c -> c_state c <> FROZEN -> pin g i -> pin g' i.
Proof. unfold setArrivalTime. intros H Hc Hn P. eapply pin_live; eauto. Qed.
Lemma pin_again g j g' i : setArrivalTime g j n0 = Ok g' -> pin g i -> pin g' i.
Proof.
  unfold setArrivalTime. intros H [c [Hc [Hs Hv]]]. unfold pin. rewrite (updCell_get _ _ _ _ i H). destruct (Z.eqb_spec j i) as [->|Hne].
  - rewrite Hc. exists (with_val c n0). split; [reflexivity|]. split; [exact Hs|reflexivity].
  - exists c. auto.
Qed.

Lemma live_skip (c : cell N) : gmm_skip c = false -> c_state c <> FROZEN.
Proof. unfold gmm_skip. destruct (c_state c); cbn; congruence. Qed.

Lemma gmm_init1_pin s i s' k : gmm_init1 s i = Ok s' -> (k = i \/ pin (gm_g s) k) -> pin (gm_g s') k.
Proof.
  intros H Hk. unfold gmm_init1 in H. invb.
  assert (P : pin x0 k).
  { destruct Hk as [->|P]; [|eapply pin_st; [eassumption|]; eapply pin_again; eauto].
    unfold pin. unfold setState in E0. rewrite (updCell_get _ _ _ _ i E0), Z.eqb_refl. unfold setArrivalTime in E. rewrite (updCell_get _ _ _ _ i E), Z.eqb_refl.
    unfold updCell in E. destruct (getCell (gm_g s) i) as [c|]; [|discriminate]. eexists. split; [reflexivity|]. split; reflexivity. }
  refine (foldM_inv_partial (fun s : gmm_state (N := N) => pin (gm_g s) k) _ _ _ _ _ _ H); [exact P|].
  intros s1 j s2 _ P1 H1. invb. destruct (fmstate_eqb (c_state x2) FROZEN) eqn:Ef; cbn [orb] in H1; invb; [exact P1|].
  destruct (isOccupied x2); invb; [exact P1|]. cbn.
  assert (Hn : c_state x2 <> FROZEN) by (intros K; rewrite K in Ef; discriminate).
  eapply (pin_live _ _ _ _ _ (with_val x2 x3)); [eassumption| |exact Hn|eapply pin_val; eauto].
  unfold setArrivalTime in E4. rewrite (updCell_get _ _ _ _ j E4), Z.eqb_refl, E2. reflexivity.
Qed.

Lemma gmm_first_pin tm g i g' k : gmm_first tm g i = Ok g' -> pin g k -> pin g' k.
Proof.
  intros H P. unfold gmm_first in H. invb. destruct (x <=? tm)%num; invb; [|exact P].
  refine (foldM_inv_partial (fun g : grid N => pin g k) _ _ _ _ _ _ H); [exact P|].
  intros g1 j g2 _ P1 H1. invb. destruct (gmm_skip x1) eqn:Es; invb; [exact P1|].
  destruct (x2 <? c_val x1)%num; invb; [|exact P1]. eapply pin_val; eauto. apply live_skip; exact Es.
Qed.

Lemma gmm_second_pin tm goal k : forall l g kept pushed stop r, gmm_second tm goal g kept l pushed stop = Ok r -> pin g k -> pin (fst (fst r)) k.
Proof.
  induction l as [|i l IH]; intros g kept pushed stop r H P; cbn in H; invb; [exact P|].
  destruct (x <=? tm)%num; invb; [|eapply IH; eauto]. destruct x1 as [g1 p1]. invb.
  eapply IH; [eassumption|]. eapply pin_st; [eassumption|].
  refine (foldM_inv_partial (fun s : grid N * list Z => pin (fst s) k) _ _ _ (g1, p1) _ _ E1); [exact P|].
  intros [g2 q2] j s2 _ P1 H1. cbn in P1. unfold gmm_second_nb in H1. apply bind_ok in H1. destruct H1 as [c [Hc H1]].
  destruct (gmm_skip c) eqn:Es; [injection H1 as <-; exact P1|]. assert (Hl := live_skip _ Es).
  apply bind_ok in H1. destruct H1 as [t [_ H1]]. apply bind_ok in H1. destruct H1 as [g4 [H4 H1]].
  assert (A : pin g4 k /\ exists c, getCell g4 j = Ok c /\ c_state c <> FROZEN).
  { destruct (t <? c_val c)%num; [|injection H4 as <-; eauto]. split; [eapply pin_val; eauto|]. unfold setArrivalTime in H4. rewrite (updCell_get _ _ _ _ j H4), Z.eqb_refl, Hc. eauto. }
  destruct A as [A [c' [Hc' Hn]]]. destruct (fmstate_eqb (c_state c) OPEN); [|injection H1 as <-; exact A].
  apply bind_ok in H1. destruct H1 as [g5 [H5 H1]]. injection H1 as <-. cbn. eapply pin_live; eauto.
Qed.

Lemma gmm_loop_pin dt goal k : forall fuel s stop s', gmm_loop fuel dt goal s stop = Ok s' -> pin (gm_g s) k -> pin (gm_g s') k.
Proof.
  induction fuel as [|n IH]; intros s stop s' H P; cbn in H; (destruct stop; [invb; exact P|]); (destruct (gm_l s) eqn:El; [invb; exact P|]); [discriminate|].
  apply bind_ok in H. destruct H as [g1 [H1 H]]. apply bind_ok in H. destruct H as [[[g2 l2] st2] [H2 H]].
  eapply IH; [exact H|]. cbn. change g2 with (fst (fst (g2, l2, st2))). eapply gmm_second_pin; [exact H2|].
  refine (foldM_inv_partial (fun g : grid N => pin g k) _ _ _ _ _ _ H1); [exact P|]. intros g3 j g4 _ P3 H3. eapply gmm_first_pin; eauto.
Qed.
End G.

Theorem C111_gmm_leaves_initial_points_at_zero :
  forall (N : Num) fuel dt goal init (g : grid N) s, gmm_run fuel dt goal init g = Ok s -> all_at_zero init (gm_g s).
Proof.
  intros N fuel dt goal init g s H i Hi. unfold gmm_run in H. apply bind_ok in H. destruct H as [s1 [H1 H]].
  assert (P : pin (gm_g s1) i).
  { destruct (in_split _ _ Hi) as [l1 [l2 ->]]. rewrite foldM_app in H1. apply bind_ok in H1. destruct H1 as [s2 [_ H1]]. cbn [foldM] in H1.
    apply bind_ok in H1. destruct H1 as [s3 [H3 H1]].
    refine (foldM_inv_partial (fun s : gmm_state (N := N) => pin (gm_g s) i) _ _ _ _ _ _ H1); [eapply gmm_init1_pin; eauto|].
    intros s4 j s5 _ P H5. eapply gmm_init1_pin; eauto. }
  destruct (gmm_loop_pin _ _ _ _ _ _ _ H P) as [c [Hc [_ Hv]]]. unfold time_is, getArrivalTime. rewrite Hc. cbn. congruence.
Qed.
Print Assumptions C111_gmm_leaves_initial_points_at_zero.

(** ** FMM and SFMM, exact arithmetic *)
Section X.
Variable dims : list Z.
Hypothesis H2 : dims2 dims.
Hypothesis Hlt : 2 * box_size dims <= 4294967296.
Variable init : list Z.
Hypothesis Hr : forall i, In i init -> 0 <= i < box_size dims.
Variable g0 : grid XR.
Hypothesis Hg : grid_ok dims g0.
Hypothesis Hre : reals_ok g0.
Hypothesis Hc : forall i c, getCell g0 i = Ok c -> c_val c = XPInf /\ c_state c = OPEN.
Let Hp : proper dims := dims2_proper' dims H2.

Definition nz (g : grid XR) i := exists c, getCell g i = Ok c /\ c_val c <> XFin 0.
Definition fz (g : grid XR) i := exists c, getCell g i = Ok c /\ c_state c = FROZEN.

Lemma ev_ok g : ev init g0 g -> grid_ok dims g /\ times_ok g /\ reals_ok g.
Proof.
  intros He. pose proof (ev_frame _ _ _ He) as F. split; [eapply frame_grid_ok; eauto|]. split; [|eapply frame_reals; eauto].
  assert (Hf : forall i, free g0 i -> (0 < slow g0 i)%R) by (intros i Hi; apply slow_pos; assumption).
  destruct (exact_exists dims init (free g0) (slow g0) Hp Hf (free_dec g0) Hr) as [X HX].
  eapply ev_above; eauto. intros i c Hi. apply (Hc i c Hi).
Qed.

Lemma in_rng (g : grid XR) i c : grid_ok dims g -> getCell g i = Ok c -> 0 <= i < box_size dims.
Proof. intros [_ K] Hi. pose proof (getCell_range g i c Hi). lia. Qed.

Lemma solve_nz (g : grid XR) j (t : XR) : ev init g0 g -> free g0 j -> solveEikonal g j = Ok t -> t <> XFin 0.
Proof.
  intros He Hf Hs. destruct (ev_ok g He) as [A [B C]]. pose proof (ev_free _ _ _ _ He Hf) as Hf'.
  assert (Hj : 0 <= j < box_size dims) by (destruct Hf' as [c [Hj _]]; eapply in_rng; eauto).
  rewrite (solveEikonal_X dims g j H2 Hlt A B C Hf' Hj) in Hs. injection Hs as <-.
  destruct (eik dims (slow g j) (times g) j) as [u|] eqn:E; cbn [ox]; [|discriminate].
  destruct (eik_some dims _ _ _ _ E) as [Hne Hu].
  destruct (RF_bounds (slow g j) Rmargin _ (slow_pos g j C Hf') Rmargin_pos Hne) as [_ [_ [x [Hx Hxu]]]].
  rewrite <- Hu in Hxu. apply upw_incl in Hx.
  destruct (in_somes_dmins dims Hp (times g) j x Hj Hx) as [k [_ Hk]]. pose proof (times_nonneg g k x B Hk). intros K. injection K as K. lra.
Qed.

Lemma nz_set (g : grid XR) j (t : XR) g' i : setArrivalTime g j t = Ok g' -> t <> XFin 0 -> (i = j \/ nz g i) -> nz g' i.
Proof.
  unfold setArrivalTime. intros H Ht Hi. unfold nz. rewrite (updCell_get _ _ _ _ i H). destruct (Z.eqb_spec j i) as [->|Hne].
  - unfold updCell in H. destruct (getCell g i) as [c|]; [|discriminate]. exists (with_val c t). split; [reflexivity|exact Ht].
  - destruct Hi as [->|[c Hi]]; [congruence|]. eauto.
Qed.
Lemma nz_keep (g : grid XR) j f g' i : updCell g j f = Ok g' -> (forall c, c_val (f c) = c_val c) -> nz g i -> nz g' i.
Proof.
  intros H Hf [c [Hi Hv]]. unfold nz. rewrite (updCell_get _ _ _ _ i H). destruct (j =? i); [|eauto]. rewrite Hi. exists (f c). rewrite Hf. auto.
Qed.

Section Heap.
Variable HO : HeapOps XR.
Variable cfg : fmm_cfg (N := XR).

Record J (m : option Z) (R : list Z) (g : grid XR) : Prop := {
  j_ev : ev init g0 g;
  j_nar : forall i c, getCell g i = Ok c -> c_state c = NARROW -> c_val c <> XFin 0;
  j_pair : forall i j, adjacent dims i j -> free g0 i -> free g0 j -> fz g i -> (m = Some i /\ In j R) \/ nz g j \/ (fz g j /\ nz g i)
}.

Lemma nb_J m j R st st' : J (Some m) (j :: R) (fs_g st) -> fmm_neighbor HO cfg st j = Ok st' -> J (Some m) R (fs_g st').
Proof.
  intros [A B C] H. pose proof (fmm_neighbor_ev init HO cfg st j st' H) as E1.
  assert (He : ev init g0 (fs_g st')) by (eapply ev_trans; eauto).
  (* what the step leaves alone, and what it does to j *)
  assert (K : (forall i, nz (fs_g st) i -> nz (fs_g st') i) /\ (forall i, fz (fs_g st') i <-> fz (fs_g st) i) /\
    (forall i c, getCell (fs_g st') i = Ok c -> c_state c = NARROW -> c_val c <> XFin 0) /\
    (fz (fs_g st) j \/ ~ free g0 j \/ nz (fs_g st') j)).
  { unfold fmm_neighbor in H. apply bind_ok in H. destruct H as [c [Hcj H]].
    destruct (fmstate_eqb (c_state c) FROZEN) eqn:Ef; cbn [orb] in H.
    { injection H as <-. split; [auto|]. split; [tauto|]. split; [exact B|]. left. exists c. split; [exact Hcj|]. apply eqb_state; exact Ef. }
    destruct (isOccupied c) eqn:Eo.
    { injection H as <-. split; [auto|]. split; [tauto|]. split; [exact B|]. right. left. intros Hf.
      destruct (ev_free _ _ _ _ A Hf) as [c2 [Hc2 Ho2]]. congruence. }
    assert (Hnf : c_state c <> FROZEN) by (intros K; rewrite K in Ef; discriminate).
    assert (Hf : free g0 j) by (eapply ev_free_inv; [exact A|]; exists c; auto).
    apply bind_ok in H. destruct H as [t [Ht H]]. pose proof (solve_nz _ _ _ A Hf Ht) as Hnz.
    apply bind_ok in H. destruct H as [g1 [H1 H]]. apply bind_ok in H. destruct H as [c1 [Hc1 H]].
    assert (Hcell : forall i ci, getCell (fs_g st) i = Ok ci -> exists c', getCell g1 i = Ok c' /\ c_state c' = c_state ci /\ c_val c' = c_val ci).
    { intros i ci Hi. destruct (FI_heur_cell _ _ _ _ _ _ H1 Hi) as [c' [P1 [P2 [P3 _]]]]. eauto. }
    assert (Hback : forall i c', getCell g1 i = Ok c' -> exists ci, getCell (fs_g st) i = Ok ci /\ c_state c' = c_state ci /\ c_val c' = c_val ci).
    { intros i c' Hi. destruct (ev_ok _ A) as [G1 _]. pose proof (fmm_heur_ev init _ _ _ _ H1) as Eh.
      assert (G2 : grid_ok dims g1) by (refine (proj1 (ev_ok g1 _)); eapply ev_trans; [exact A|exact Eh]).
      destruct (getCell_in dims (fs_g st) i G1 (in_rng g1 i c' G2 Hi)) as [ci Hci]. exists ci. split; [exact Hci|].
      destruct (Hcell i ci Hci) as [c2 [Q1 [Q2 Q3]]]. rewrite Hi in Q1. injection Q1 as <-. auto. }
    assert (Z1 : forall i, nz (fs_g st) i -> nz g1 i). { intros i [ci [Q1 Q2]]. destruct (Hcell i ci Q1) as [c' [P1 [_ P3]]]. exists c'. split; [exact P1|]. congruence. }
    assert (F1 : forall i, fz g1 i <-> fz (fs_g st) i).
    { intros i. split; intros [ci [Q1 Q2]].
      - destruct (Hback i ci Q1) as [c' [P1 [P2 _]]]. exists c'. split; [exact P1|]. congruence.
      - destruct (Hcell i ci Q1) as [c' [P1 [P2 _]]]. exists c'. split; [exact P1|]. congruence. }
    assert (N1 : forall i c, getCell g1 i = Ok c -> c_state c = NARROW -> c_val c <> XFin 0).
    { intros i ci Hi Hs. destruct (Hback i ci Hi) as [c' [P1 [P2 P3]]]. rewrite P3. apply (B i c' P1). congruence. }
    assert (Hs1 : c_state c1 <> FROZEN). { intros K. apply Hnf. destruct (Hcell j c Hcj) as [c' [P1 [P2 _]]]. rewrite P1 in Hc1. injection Hc1 as ->. congruence. }
    destruct (fmstate_eqb (c_state c1) NARROW) eqn:En.
    - destruct (isTimeBetterThan t (c_val c1)).
      + apply bind_ok in H. destruct H as [g2 [Hg2 H]]. apply bind_ok in H. destruct H as [h2 [_ H]]. injection H as <-. cbn [fs_g].
        split; [intros i Hi; eapply nz_set; eauto|]. split.
        { intros i. rewrite <- F1. unfold fz, setArrivalTime in *. rewrite (updCell_get _ _ _ _ i Hg2). destruct (Z.eqb_spec j i) as [->|]; [|tauto]. rewrite Hc1.
          split; intros [c2 [Q1 Q2]]; injection Q1 as <-; cbn in Q2; eauto. }
        split; [|right; right; eapply nz_set; eauto].
        intros i ci Hi Hs. unfold setArrivalTime in Hg2. rewrite (updCell_get _ _ _ _ i Hg2) in Hi. destruct (j =? i); [|eauto].
        destruct (getCell g1 i); [|discriminate]. injection Hi as <-. exact Hnz.
      + injection H as <-. cbn [fs_g]. split; [exact Z1|]. split; [exact F1|]. split; [exact N1|]. right. right. exists c1. split; [exact Hc1|]. apply (N1 j c1 Hc1), eqb_state, En.
    - apply bind_ok in H. destruct H as [g2 [Hg2 H]]. apply bind_ok in H. destruct H as [g3 [Hg3 H]]. injection H as <-. cbn [fs_g].
      split; [intros i Hi; eapply nz_set; [exact Hg3|exact Hnz|]; right; unfold setState in Hg2; eapply nz_keep; [exact Hg2|reflexivity|auto]|]. split.
      { intros i. rewrite <- F1. unfold fz, setArrivalTime, setState in *. rewrite (updCell_get _ _ _ _ i Hg3), (updCell_get _ _ _ _ i Hg2). destruct (Z.eqb_spec j i) as [->|]; [|tauto]. rewrite Hc1.
        split; intros [c2 [Q1 Q2]]; injection Q1 as <-; cbn in Q2; [discriminate|congruence]. }
      split; [|right; right; eapply nz_set; eauto].
      intros i ci Hi Hs. unfold setArrivalTime, setState in *. rewrite (updCell_get _ _ _ _ i Hg3), (updCell_get _ _ _ _ i Hg2) in Hi. destruct (j =? i); [|eauto].
      destruct (getCell g1 i); [|discriminate]. injection Hi as <-. exact Hnz. }
  destruct K as [K1 [K2 [K3 K4]]]. constructor; [exact He|exact K3|].
  intros i x Ha Hi Hx Hfi. apply K2 in Hfi. destruct (C i x Ha Hi Hx Hfi) as [[Em [<-|Hin]]|[Hn|[Hf Hn]]].
  - injection Em as <-. destruct K4 as [K4|[K4|K4]]; [|contradiction|right; left; exact K4].
    destruct (C j m (adjacent_sym _ _ _ Ha) Hx Hi K4) as [[Ej _]|[Hn|[Hf Hn]]].
    + injection Ej as ->. exfalso. eapply adjacent_irrefl; eauto.
    + right. right. split; [apply K2; exact K4|auto].
    + right. left. auto.
  - left. auto.
  - right. left. auto.
  - right. right. split; [apply K2; exact Hf|auto].
Qed.

Lemma J_any m g : J m [] g -> forall m', J m' [] g.
Proof. intros [A B C] m'. constructor; auto. intros i j Ha Hi Hj Hf. destruct (C i j Ha Hi Hj Hf) as [[_ []]|K]; auto. Qed.

Lemma step_J st m st' : J None [] (fs_g st) -> fmm_step HO cfg st = Ok (Some (m, st')) -> J None [] (fs_g st').
Proof.
  intros [A B C] H. unfold fmm_step in H. destruct (hpop HO _ _) as [[k h1]|]; [|discriminate].
  apply bind_ok in H. destruct H as [ns [Hns H]]. apply bind_ok in H. destruct H as [g1 [Hg1 H]]. apply bind_ok in H. destruct H as [s [Hs H]]. injection H as -> ->.
  assert (He : ev init g0 g1) by (eapply Evolve.setst; eauto). destruct (ev_ok _ A) as [G _].
  assert (Hm : 0 <= m < box_size dims). { unfold setState, updCell in Hg1. destruct (getCell (fs_g st) m) as [c|] eqn:E; [|discriminate]. eapply in_rng; eauto. }
  destruct G as [Gs _]. rewrite Gs, (getNeighbors_eq dims m Hp Hlt Hm) in Hns. injection Hns as <-.
  assert (J1 : J (Some m) (nbrs dims m) g1).
  { unfold setState in Hg1. constructor; [exact He| |].
    - intros i c Hi Hst. rewrite (updCell_get _ _ _ _ i Hg1) in Hi. destruct (m =? i); [|eauto]. destruct (getCell (fs_g st) i); [|discriminate]. injection Hi as <-. discriminate.
    - intros i j Ha Hi Hj Hf. destruct (Z.eq_dec m i) as [->|Hne]; [left; split; [reflexivity|]; apply nbrs_spec; assumption|]. right.
      assert (Hf' : fz (fs_g st) i). { unfold fz in *. rewrite (updCell_get _ _ _ _ i Hg1) in Hf. destruct (Z.eqb_spec m i); [contradiction|exact Hf]. }
      destruct (C i j Ha Hi Hj Hf') as [[K _]|[K|[K1 K2]]]; [discriminate|left; eapply nz_keep; eauto|right].
      split; [|eapply nz_keep; eauto]. unfold fz in *. rewrite (updCell_get _ _ _ _ j Hg1). destruct (m =? j); [|exact K1]. destruct K1 as [c [-> K1]]. eexists. split; [reflexivity|]. reflexivity. }
  apply (J_any (Some m)). change g1 with (fs_g (mkFst g1 h1)) in J1. clear -J1 Hs H2 Hlt Hr Hg Hre Hc Hp. revert J1 Hs. generalize (mkFst g1 h1) as s0. generalize (nbrs dims m) as l.
  induction l as [|j l IH]; intros s0 J1 Hs; cbn [foldM] in Hs; [injection Hs as <-; exact J1|].
  apply bind_ok in Hs. destruct Hs as [s1 [E1 Hs]]. eapply IH; [|exact Hs]. eapply nb_J; eauto.
Qed.

Lemma loop_J goal : forall fuel st log st' log', fmm_loop HO fuel cfg goal st log = Ok (st', log') -> J None [] (fs_g st) -> J None [] (fs_g st').
Proof.
  induction fuel as [|k IH]; intros st log st' log' H P; cbn in H; [discriminate|]. apply bind_ok in H. destruct H as [[[m s]|] [H1 H]].
  - apply step_J in H1; [|exact P]. destruct (m =? goal); [injection H as <- _; exact H1|eauto].
  - injection H as <- _. exact P.
Qed.

Lemma run_J goal fuel h0 st log : fmm_run HO fuel cfg goal init g0 h0 = Ok (st, log) -> J None [] (fs_g st).
Proof.
  intros H. unfold fmm_run in H. apply bind_ok in H. destruct H as [s [Hs H]]. eapply loop_J; [exact H|].
  assert (P : ev init g0 (fs_g s) /\ forall i c, getCell (fs_g s) i = Ok c -> c_state c = OPEN).
  { refine (foldM_inv_partial (fun s : fmm_state HO => ev init g0 (fs_g s) /\ forall i c, getCell (fs_g s) i = Ok c -> c_state c = OPEN) _ _ _ _ _ _ Hs).
    - split; [apply ev_refl|]. intros i c Hi. apply (Hc i c Hi).
    - intros s1 i s2 Hi [A B] H1. unfold fmm_init1 in H1. apply bind_ok in H1. destruct H1 as [g1 [Hg1 H1]]. apply bind_ok in H1. destruct H1 as [g2 [Hg2 H1]]. injection H1 as <-. cbn [fs_g].
      assert (E1 : ev init g0 g1) by (eapply Evolve.setval_init; eauto). pose proof (fmm_heur_ev init _ _ _ _ Hg2) as Eh.
      assert (E2 : ev init g0 g2) by (eapply ev_trans; eauto). split; [exact E2|].
      intros x c Hx. destruct (ev_ok _ E1) as [G1 _]. destruct (ev_ok _ E2) as [G2 _].
      destruct (getCell_in dims g1 x G1 (in_rng g2 x c G2 Hx)) as [c1 Hc1]. destruct (FI_heur_cell _ _ _ _ _ _ Hg2 Hc1) as [c' [P1 [P2 _]]].
      rewrite Hx in P1. injection P1 as <-. rewrite P2. unfold setArrivalTime in Hg1. rewrite (updCell_get _ _ _ _ x Hg1) in Hc1. destruct (i =? x); [|eauto].
      destruct (getCell (fs_g s1) x) as [c0|] eqn:E; [|discriminate]. injection Hc1 as <-. cbn. eauto. }
  destruct P as [A B]. constructor; [exact A| |].
  - intros i c Hi Hst. rewrite (B i c Hi) in Hst. discriminate.
  - intros i j _ _ _ [c [Hi Hst]]. rewrite (B i c Hi) in Hst. discriminate.
Qed.
End Heap.
End X.

(** two free neighbours that a run of FMM or SFMM has accepted are not both at time zero *)
Theorem C111_fmm_never_accepts_neighbours_at_zero :
  forall (HO : HeapOps XR) cfg dims (g : grid XR) init goal fuel h0 st log a b ca cb,
  exact_problem dims g init -> fmm_run HO fuel cfg goal init g h0 = Ok (st, log) ->
  adjacent dims a b -> free g a -> free g b ->
  getCell (fs_g st) a = Ok ca -> getCell (fs_g st) b = Ok cb -> c_state ca = FROZEN -> c_state cb = FROZEN ->
  ~ (c_val ca = XFin 0 /\ c_val cb = XFin 0).
Proof.
  intros HO cfg dims g init goal fuel h0 st log a b ca cb [[H2 Hlt] [[Hg Hc] [Hre [Hnd Hr]]]] Hrun Ha Fa Fb Ca Cb Sa Sb [Va Vb].
  assert (Hc' : forall i c, getCell g i = Ok c -> c_val c = XPInf /\ c_state c = OPEN) by (intros i c Hi; split; apply (Hc i c Hi)).
  destruct (run_J dims H2 Hlt init Hr g Hg Hre Hc' HO cfg goal fuel h0 st log Hrun) as [_ _ C].
  destruct (C a b Ha Fa Fb ltac:(exists ca; auto)) as [[K _]|[[c [K1 K2]]|[_ [c [K1 K2]]]]]; [discriminate|congruence|congruence].
Qed.
Print Assumptions C111_fmm_never_accepts_neighbours_at_zero.

(** so a complete run does not leave two neighbouring initial points at zero *)
Theorem C111_fmm_delays_one_of_two_neighbours :
  forall (HO : HeapOps XR) (BL : BagLaws HO) cfg dims (g : grid XR) init fuel st log a b,
  exact_problem dims g init -> heuristic_ready dims cfg -> fmm_outcome HO cfg noGoal init g fuel st log ->
  neighbours dims g init a b -> ~ (time_is (fs_g st) a (XFin 0) /\ time_is (fs_g st) b (XFin 0)).
Proof.
  intros HO BL cfg dims g init fuel st log a b HP Hh Hrun [Ia [Ib [Ha [Fa Fb]]]] [Ta Tb]. pose proof HP as [Hs [Hcl [Hre [Hnd Hr]]]].
  destruct (run_exact dims Hs HO BL cfg init g noGoal Hh Hcl Hre Hr) as [k [st1 [log1 [A B]]]].
  destruct (outcome_det _ _ _ _ _ _ _ _ _ _ _ A Hrun) as [-> ->]. pose proof (no_goal_empty _ _ _ _ _ _ _ Hs B) as E.
  destruct B as [_ [B1 [_ [B2 _]]]].
  assert (F : forall i, In i init -> exists c, getCell (fs_g st1) i = Ok c /\ c_state c = FROZEN) by (intros i Hi; apply B1, (B2 E), reach_src, Hi).
  destruct (F a Ia) as [ca [Ca Sa]], (F b Ib) as [cb [Cb Sb]]. unfold time_is, getArrivalTime in *. rewrite Ca in Ta. rewrite Cb in Tb. injection Ta as Ta. injection Tb as Tb.
  eapply C111_fmm_never_accepts_neighbours_at_zero; [exact HP|exact Hrun|exact Ha|exact Fa|exact Fb|exact Ca|exact Cb|exact Sa|exact Sb|auto].
Qed.
Print Assumptions C111_fmm_delays_one_of_two_neighbours.

(** ** FIM, exact arithmetic *)
Section F.
Variable dims : list Z.
Hypothesis H2 : dims2 dims.
Hypothesis Hlt : 2 * box_size dims <= 4294967296.
Variable init : list Z.
Hypothesis Hr : forall i, In i init -> 0 <= i < box_size dims.
Variable g0 : grid XR.
Hypothesis Hg : grid_ok dims g0.
Hypothesis Hre : reals_ok g0.
Hypothesis Hc : forall i c, getCell g0 i = Ok c -> c_val c = XPInf /\ c_state c = OPEN.
Let Hp : proper dims := dims2_proper' dims H2.
Let snz := solve_nz dims H2 Hlt init Hr g0 Hg Hre Hc.

Lemma fnb_nz s j s' i : fim_inv init g0 (fst s) (snd s) -> fim_neighbor s j = Ok s' -> nz (fst s) i -> nz (fst s') i.
Proof.
  destruct s as [g ins]. intros [A B] H Hi. cbn [fst snd] in *. unfold fim_neighbor in H. apply bind_ok in H. destruct H as [c [Hcj H]].
  destruct (negb (fmstate_eqb (c_state c) NARROW)); cbn [andb] in H; [|injection H as <-; exact Hi].
  destruct (isOccupied c) eqn:Eo; cbn [negb] in H; [injection H as <-; exact Hi|].
  apply bind_ok in H. destruct H as [q [Hq H]]. destruct (isTimeBetterThan q (c_val c)); [|injection H as <-; exact Hi].
  apply bind_ok in H. destruct H as [g1 [H1 H]]. apply bind_ok in H. destruct H as [g2 [H3 H]]. injection H as <-. cbn [fst].
  unfold setState in H3. eapply nz_keep; [exact H3|reflexivity|]. eapply nz_set; [exact H1| |auto].
  eapply snz; [exact A| |exact Hq]. eapply ev_free_inv; [exact A|]. exists c; auto.
Qed.

Lemma fpass_nz E goal : forall after g before stop ub r, fim_inv init g0 g (before ++ after) ->
  fim_pass E goal g before after stop ub = Ok r ->
  forall i, (In i after \/ nz g i) -> nz (fst (fst (fst r))) i.
Proof.
  induction after as [|x l IH]; intros g before stop ub r [A B] H i Hi; cbn in H.
  - injection H as <-. destruct Hi as [[]|Hi]. exact Hi.
  - apply bind_ok in H. destruct H as [p [Hp0 H]]. apply bind_ok in H. destruct H as [q [Hq H]]. apply bind_ok in H. destruct H as [g1 [Hg1 H]].
    assert (Fx : free g0 x) by (apply B, in_or_app; right; left; reflexivity). pose proof (snz g x q A Fx Hq) as Hnz.
    assert (Hx : ev init g0 g1) by (destruct (ev_free _ _ _ _ A Fx) as [c [Hcx Ho]]; eapply Evolve.setval_free; eauto).
    assert (Z1 : x = i \/ nz g i -> nz g1 i) by (intros K; eapply nz_set; [exact Hg1|exact Hnz|destruct K; auto]).
    match type of H with (if ?e then _ else _) = _ => destruct e end.
    + apply bind_ok in H. destruct H as [ns [Hns H]]. apply bind_ok in H. destruct H as [[g2 ins] [Hf H]]. apply bind_ok in H. destruct H as [g3 [Hg3 H]].
      assert (Hinv : fim_inv init g0 g2 ins /\ (nz g1 i -> nz g2 i)).
      { refine (foldM_inv_partial (fun s => fim_inv init g0 (fst s) (snd s) /\ (nz g1 i -> nz (fst s) i)) _ _ _ (g2, ins) _ _ Hf).
        - split; [|auto]. split; [exact Hx|intros y []].
        - intros s j s1 _ [Hs Hs2] Hj. split; [eapply fim_neighbor_inv; eauto|]. intros K. eapply fnb_nz; eauto. }
      destruct Hinv as [[HF2 Hins] HZ]. eapply IH; [|exact H|].
      * split; [eapply Evolve.setst; eauto|]. intros y Hy. rewrite <- app_assoc in Hy. apply in_app_or in Hy. destruct Hy as [Hy|Hy]; [apply B, in_or_app; auto|].
        apply in_app_or in Hy. destruct Hy as [Hy|Hy]; [auto|]. apply B, in_or_app; right; right; exact Hy.
      * destruct Hi as [[Hi|Hi]|Hi]; [right| left; exact Hi | right]; unfold setState in Hg3; (eapply nz_keep; [exact Hg3|reflexivity|]); apply HZ, Z1; auto.
    + eapply IH; [|exact H|].
      * split; [exact Hx|]. rewrite <- app_assoc. exact B.
      * destruct Hi as [[Hi|Hi]|Hi]; auto.
Qed.

Lemma floop_nz E goal : forall fuel g l stop ub r, fim_inv init g0 g l -> fim_loop fuel E goal g l stop ub = Ok r ->
  forall i, ((stop = false /\ In i l) \/ nz g i) -> nz (fst (fst r)) i.
Proof.
  induction fuel as [|k IH]; intros g l stop ub r A H i Hi; cbn in H;
    (destruct stop; [injection H as <-; destruct Hi as [[K _]|K]; [discriminate|exact K]|]); (destruct l as [|x l]; [injection H as <-; destruct Hi as [[_ []]|K]; exact K|]); [discriminate|].
  apply bind_ok in H. destruct H as [[[[g1 l1] st1] ub1] [H1 H]].
  assert (Z1 : nz g1 i) by (change g1 with (fst (fst (fst (g1, l1, st1, ub1)))); eapply (fpass_nz E goal (x :: l) g []); [exact A|exact H1|tauto]).
  apply (fim_pass_inv init E goal g0 g [] (x :: l)) in H1; [|exact A]. eapply IH; [exact H1|exact H|right; exact Z1].
Qed.

(** b has not been processed and is in the list if it is marked *)
Definition waits (s : fim_state (N := XR)) (b : Z) : Prop := exists c, getCell (fi_g s) b = Ok c /\ isOccupied c = false /\ (c_state c = OPEN \/ In b (fi_l s)).

Lemma finit_waits s i s' b : i <> b -> waits s b -> fim_init1 s i = Ok s' ->
  waits s' b /\ (grid_ok dims (fi_g s) -> 0 <= i < box_size dims -> adjacent dims i b -> In b (fi_l s')).
Proof.
  intros Hne Hw H. unfold fim_init1 in H. apply bind_ok in H. destruct H as [g1 [H1 H]]. apply bind_ok in H. destruct H as [g2 [H3 H]]. apply bind_ok in H. destruct H as [ns [Hns H]].
  assert (Hw2 : waits (mkFim g2 (fi_l s)) b).
  { destruct Hw as [c [Cb [Co Cs]]]. exists c. cbn [fi_g fi_l]. split; [|auto]. unfold setState, setArrivalTime in *.
    rewrite (updCell_get _ _ _ _ b H3). destruct (Z.eqb_spec i b); [contradiction|]. rewrite (updCell_get _ _ _ _ b H1). destruct (Z.eqb_spec i b); [contradiction|exact Cb]. }
  assert (Gen : forall l s0, waits s0 b -> foldM (fun (s : fim_state (N := XR)) j => c <- getCell (fi_g s) j ;;
           if fmstate_eqb (c_state c) OPEN && negb (isOccupied c) then g' <- setState (fi_g s) j NARROW ;; Ok (mkFim g' (fi_l s ++ [j])) else Ok s) l s0 = Ok s' ->
         waits s' b /\ (In b l \/ In b (fi_l s0) -> In b (fi_l s'))).
  { induction l as [|j l IH]; intros s0 Hw0 Hf; cbn [foldM] in Hf; [injection Hf as <-; split; [exact Hw0|intros [[]|K]; exact K]|].
    apply bind_ok in Hf. destruct Hf as [s1 [Hs1 Hf]].
    assert (K : waits s1 b /\ (j = b \/ In b (fi_l s0) -> In b (fi_l s1))).
    { destruct Hw0 as [c [Cb [Co Cs]]]. apply bind_ok in Hs1. destruct Hs1 as [cj [Hcj Hs1]].
      destruct (fmstate_eqb (c_state cj) OPEN) eqn:Eo; cbn [andb] in Hs1.
      2:{ injection Hs1 as <-. split; [exists c; auto|]. intros [->|K]; [|exact K]. rewrite Cb in Hcj. injection Hcj as <-. destruct Cs as [Cs|Cs]; [|exact Cs]. rewrite Cs in Eo. discriminate. }
      destruct (isOccupied cj) eqn:Ej; cbn [negb] in Hs1.
      { injection Hs1 as <-. split; [exists c; auto|]. intros [->|K]; [congruence|exact K]. }
      apply bind_ok in Hs1. destruct Hs1 as [g' [Hg' Hs1]]. injection Hs1 as <-. unfold setState in Hg'. split.
      - unfold waits. cbn [fi_g fi_l]. rewrite (updCell_get _ _ _ _ b Hg'). destruct (Z.eqb_spec j b) as [->|Hn].
        + rewrite Cb. exists (with_state c NARROW). split; [reflexivity|]. split; [exact Co|]. right. apply in_or_app. right. left. reflexivity.
        + exists c. split; [exact Cb|]. split; [exact Co|]. destruct Cs as [Cs|Cs]; [auto|right; apply in_or_app; auto].
      - cbn [fi_l]. intros [->|K]; apply in_or_app; [right; left; reflexivity|auto]. }
    destruct K as [K1 K2]. destruct (IH s1 K1 Hf) as [L1 L2]. split; [exact L1|]. intros [[->|K]|K]; auto. }
  destruct (Gen ns _ Hw2 H) as [W1 W2]. split; [exact W1|]. intros G Hi Ha. apply W2. left.
  assert (Gs : g_sh g2 = mk_shape dims).
  { destruct G as [Gs _]. unfold setState, setArrivalTime, updCell in *. destruct (getCell (fi_g s) i) as [c|]; [|discriminate].  injection H1 as <-. 
    match type of H3 with bind ?e _ = _ => destruct e; [|discriminate] end. injection H3 as <-. exact Gs. }
  rewrite Gs, (getNeighbors_eq dims i Hp Hlt Hi) in Hns. injection Hns as <-. apply nbrs_spec; assumption.
Qed.

Lemma finit_keeps : forall l (s s' : fim_state (N := XR)) b, foldM fim_init1 l s = Ok s' -> In b (fi_l s) -> In b (fi_l s').
Proof.
  intros l s s' b H Hb. refine (foldM_inv_partial (fun s : fim_state (N := XR) => In b (fi_l s)) _ _ _ _ _ _ H); [exact Hb|].
  intros s1 i s2 _ K H1. unfold fim_init1 in H1. apply bind_ok in H1. destruct H1 as [g1 [_ H1]]. apply bind_ok in H1. destruct H1 as [g2 [_ H1]]. apply bind_ok in H1. destruct H1 as [ns [_ H1]].
  refine (foldM_inv_partial (fun s : fim_state (N := XR) => In b (fi_l s)) _ _ _ _ _ _ H1); [exact K|].
  intros s3 j s4 _ K3 H3. apply bind_ok in H3. destruct H3 as [c [_ H3]]. destruct (_ && _); [|injection H3 as <-; exact K3].
  apply bind_ok in H3. destruct H3 as [g' [_ H3]]. injection H3 as <-. apply in_or_app. auto.
Qed.
End F.

Theorem C111_fim_delays_the_neighbour_given_later :
  forall dims (g : grid XR) pre mid post a b fuel E goal r,
  exact_problem dims g (pre ++ a :: mid ++ b :: post) -> fim_run fuel E goal (pre ++ a :: mid ++ b :: post) g = Ok r ->
  adjacent dims a b -> free g b -> ~ time_is (fst (fst r)) b (XFin 0).
Proof.
  intros dims g pre mid post a b fuel E goal r [[H2 Hlt] [[Hg Hc] [Hre [Hnd Hr]]]] Hrun Ha Fb Tb.
  assert (Hc' : forall i c, getCell g i = Ok c -> c_val c = XPInf /\ c_state c = OPEN) by (intros i c Hi; split; apply (Hc i c Hi)).
  unfold fim_run in Hrun. apply bind_ok in Hrun. destruct Hrun as [s [Hs Hrun]].
  pose proof (fim_init_inv _ _ _ Hs) as Hinv.
  assert (Hb : In b (fi_l s)).
  { rewrite foldM_app in Hs. apply bind_ok in Hs. destruct Hs as [s1 [H1 Hs]]. cbn [foldM] in Hs. apply bind_ok in Hs. destruct Hs as [s2 [Hx Hs]].
    assert (Hne : forall i, In i pre \/ i = a -> i <> b).
    { intros i Hi ->. assert (K : ~ In b ((pre ++ a :: mid) ++ post)) by (apply NoDup_remove_2; rewrite <- app_assoc; exact Hnd). apply K, in_or_app. left. apply in_or_app.
      destruct Hi as [Hi| ->]; [left; exact Hi|right; left; reflexivity]. }
    assert (W : waits s1 b /\ ev pre g (fi_g s1)).
    { split.
      - destruct Fb as [c [Hcb Ho]].
        refine (foldM_inv_partial (fun s : fim_state (N := XR) => waits s b) _ _ _ _ _ _ H1).
        + exists c. split; [exact Hcb|]. split; [exact Ho|]. left. apply (Hc' b c Hcb).
        + intros s3 i s4 Hi W H3. exact (proj1 (finit_waits dims H2 Hlt s3 i s4 b (Hne i (or_introl Hi)) W H3)).
      - apply (fim_init_ev pre) in H1. exact H1. }
    destruct W as [W He].
    assert (G1 : grid_ok dims (fi_g s1)) by (eapply frame_grid_ok; [eapply ev_frame; exact He|exact Hg]).
    destruct (finit_waits dims H2 Hlt s1 a s2 b (Hne a (or_intror eq_refl)) W Hx) as [_ K].
    eapply finit_keeps; [exact Hs|]. apply K; [exact G1| |exact Ha]. apply Hr, in_or_app. right. left. reflexivity. }
  destruct (floop_nz dims H2 Hlt _ Hr g Hg Hre Hc' E goal fuel _ _ _ _ _ Hinv Hrun b (or_introl (conj eq_refl Hb))) as [c [Cb Vb]].
  unfold time_is, getArrivalTime in Tb. rewrite Cb in Tb. injection Tb as Tb. contradiction.
Qed.
Print Assumptions C111_fim_delays_the_neighbour_given_later.

(** ** FSM, LSM and DDQM *)
Inductive sweeping_run {N : Num} (dims : list Z) (g : grid N) (init : list Z) (goal : Z) : grid N -> Prop :=
| sw_fsm fuel maxSweeps sweeps incs s n incs' : is_dir (length dims) incs ->
    fsm_run fuel maxSweeps goal init sweeps incs g = Ok (s, n, incs') -> sweeping_run dims g init goal (sw_g s)
| sw_lsm fuel maxSweeps sweeps incs s n incs' : is_dir (length dims) incs ->
    lsm_run fuel maxSweeps goal init sweeps incs g = Ok (s, n, incs') -> sweeping_run dims g init goal (sw_g s)
| sw_ddqm fuel th step s :
    ddqm_run fuel goal init th step g = Ok s -> sweeping_run dims g init goal (dq_g s).

Theorem C111_sweeping_leaves_initial_points_at_zero :
  forall dims (g : grid XR) init goal g', exact_problem dims g init -> sweeping_run dims g init goal g' -> all_at_zero init g'.
Proof.
  intros dims g init goal g' [[H2 Hlt] [[Hg Hc] [Hre [Hnd Hr]]]] H i Hi.
  assert (Hc' : forall i c, getCell g i = Ok c -> c_val c = XPInf) by (intros k c Hk; apply (Hc k c Hk)).
  assert (G : GX dims init g g').
  { destruct H as [fuel ms sw incs s n incs' Hd H|fuel ms sw incs s n incs' Hd H|fuel th step s H].
    - eapply fsm_run_X in H; eauto. apply H.
    - eapply lsm_run_X in H; eauto. apply H.
    - eapply ddqm_run_X in H; eauto. apply H. }
  pose proof (s_src _ _ _ _ _ (gx_s _ _ _ _ G) i Hi) as K. unfold times in K. unfold time_is.
  destruct (getArrivalTime g' i) as [[]|]; try discriminate. injection K as ->. reflexivity.
Qed.
Print Assumptions C111_sweeping_leaves_initial_points_at_zero.

(** the same in doubles, for any map with a cell width that is not negative *)
Theorem C111_sweeping_leaves_initial_points_at_zero_doubles :
  forall dims (g : grid F64) init g', clean_grid dims g -> not_below (g_leaf g) -> better_run g init g' -> all_at_zero init g'.
Proof. intros dims g init g' Hc Hl Hrun i Hi. eapply C90_sources_stay_zero; eauto. eapply clean_nn; eauto. Qed.
Print Assumptions C111_sweeping_leaves_initial_points_at_zero_doubles.

(** ** UFMM: in doubles, two neighbouring initial points and the library's own sizes of the
    untidy queue: the run converts an infinite number to an integer and has no result *)
Theorem C111_ufmm_has_no_result_for_neighbours :
  exists size inc, size = 2000 /\ inc = (n1 : F64) /\ ufmm_run 40 noGoal [0;1] (new_grid [3;3] (n1 : F64)) (uq_new size inc) = Fail UB.
Proof.
  exists 2000, (n1 : F64). split; [reflexivity|]. split; [reflexivity|].
  assert (H : match ufmm_run 40 noGoal [0;1] (new_grid [3;3] (n1 : F64)) (uq_new 2000 n1) with Fail UB => true | _ => false end = true) by (vm_compute; reflexivity).
  destruct (ufmm_run 40 noGoal [0;1] (new_grid [3;3] (n1 : F64)) (uq_new 2000 n1)) as [r|[]]; congruence.
Qed.
Print Assumptions C111_ufmm_has_no_result_for_neighbours.

(** ** cases *)
Lemma adjacent_problem : exact_problem [3;3] (new_grid [3;3] (XFin 1 : XR)) [0;1] /\ neighbours [3;3] (new_grid [3;3] (XFin 1 : XR)) [0;1] 0 1.
Proof.
  assert (Hp : proper [3;3]) by (repeat constructor; lia).
  assert (F : forall i, 0 <= i < 9 -> free (new_grid [3;3] (XFin 1 : XR)) i).
  { intros i Hi. apply (new_grid_free XR_laws); [exact Hp|cbn; lia|cbn; lia]. }
  split.
  - split; [split; [repeat constructor; lia|cbn; lia]|]. split; [|split; [apply new_grid_reals_ok; lra|]].
    + split; [apply new_grid_ok; [exact Hp|cbn; lia]|]. intros i c Hi. apply new_grid_cell in Hi. subst. repeat split.
    + split; [repeat constructor; cbn; intuition lia|]. intros i [<-|[<-|[]]]; cbn; lia.
  - split; [left; reflexivity|]. split; [right; left; reflexivity|]. split; [|split; apply F; lia].
    apply nbrs_spec; [exact Hp|cbn; lia|vm_compute; auto].
Qed.

(** the five solvers that end, in doubles *)
Definition at_zero (r : res (grid F64)) (i : Z) : option bool :=
  match r with Ok g => match getArrivalTime g i with Ok t => Some (negb (nltb n0 t) && negb (nltb t n0)) | _ => None end | _ => None end.
Example C111_case_doubles :
  let g := new_grid [3;3] (n1 : F64) in let init := [0;1] in
  let both r := (at_zero r 0, at_zero r 1) in
  both (s <- gmm_run 40 (n1 : F64) noGoal init g ;; Ok (gm_g s)) = (Some true, Some true) /\
  both (s <- ddqm_run 40 noGoal init (n0 : F64) (n1 : F64) g ;; Ok (dq_g s)) = (Some true, Some true) /\
  both ('(s, _, _) <- fsm_run 40 40 noGoal init 0 (init_incs 2) g ;; Ok (sw_g s)) = (Some true, Some true) /\
  both ('(s, _, _) <- lsm_run 40 40 noGoal init 0 (init_incs 2) g ;; Ok (sw_g s)) = (Some true, Some true) /\
  both ('(s, _) <- fmm_run (RefHeap (N := F64)) 40 no_heur noGoal init g (hempty _) ;; Ok (fs_g s)) = (Some true, Some false) /\
  both ('(s, _) <- fmm_run (StdHeap (N := F64)) 80 no_heur noGoal init g (hempty _) ;; Ok (fs_g s)) = (Some true, Some false) /\
  both ('(s, _, _) <- fim_run 40 (n0 : F64) noGoal init g ;; Ok s) = (Some true, Some false).
Proof. vm_compute. repeat split; reflexivity. Qed.

(** exact runs that meet the hypotheses exist *)
Example C111_case_fmm : exists st log, (exists fuel, fmm_outcome (RefHeap (N := XR)) no_heur noGoal [0;1] (new_grid [3;3] (XFin 1 : XR)) fuel st log) /\
  ~ (time_is (fs_g st) 0 (XFin 0) /\ time_is (fs_g st) 1 (XFin 0)).
Proof.
  destruct adjacent_problem as [HP HN]. pose proof HP as [Hs [Hcl [Hre [Hnd Hr]]]].
  assert (Hh : heuristic_ready [3;3] (no_heur (N := XR))) by (left; reflexivity).
  destruct (C15_fmm_terminates_exact_any_sources RefHeap RefBag [3;3] _ [0;1] no_heur noGoal Hs Hcl Hre Hr Hh) as [k [st [log [A _]]]].
  exists st, log. split; [exists k; apply A; lia|]. eapply (C111_fmm_delays_one_of_two_neighbours _ RefBag); [exact HP|exact Hh|apply (A k); lia|exact HN].
Qed.

(** an exact run of FIM with neighbouring initial points *)
Lemma tg_solve00 : solveEikonal (tg (XFin 0 : XR) FROZEN (XFin 0 : XR) FROZEN) 1 = Ok (XPInf : XR).
Proof.
  set (g := tg _ _ _ _).
  assert (Hok : times_ok g).
  { intros i c Hc. apply tg_cell in Hc. destruct Hc as [[_ ->]|[[_ ->]|[[_ ->]|[_ ->]]]]; cbn; auto; right; exists 0%R; (split; [reflexivity|lra]). }
  rewrite (solveEikonal_X [2;2] g 1).
  - unfold eik.
    replace (dmins [2;2] (times g) 1) with [Some 0%R; None] by reflexivity.
    replace (times g 1) with (Some 0%R) by reflexivity. cbn [upw somes flat_map app].
    unfold below. cbn [filter]. destruct (Rlt_dec 0 0); [lra|reflexivity].
  - repeat constructor; lia.
  - cbn; lia.
  - split; reflexivity.
  - exact Hok.
  - split; [exists 1%R; split; [reflexivity|lra]|]. intros i c Hc. apply tg_cell in Hc.
    destruct Hc as [[_ ->]|[[_ ->]|[[_ ->]|[_ ->]]]]; eexists; reflexivity.
  - eexists. split; [reflexivity|]. apply tg_free.
  - cbn; lia.
Qed.

Example C111_case_fim : exists r, fim_run 3 (XFin 0 : XR) noGoal ([] ++ 0 :: [] ++ 1 :: []) (tg (XPInf : XR) OPEN (XPInf : XR) OPEN) = Ok r /\
  exact_problem [2;2] (tg (XPInf : XR) OPEN (XPInf : XR) OPEN) ([] ++ 0 :: [] ++ 1 :: []) /\ adjacent [2;2] 0 1 /\ free (tg (XPInf : XR) OPEN (XPInf : XR) OPEN) 1.
Proof.
  set (q := RF 1 Rmargin [0%R]).
  exists (tg (XFin 0 : XR) FROZEN (XFin q : XR) FROZEN, [], true). split; [|split; [|split]].
  - cbn [app]. assert (Hinit : fim_init1 (mkFim (tg (XPInf : XR) OPEN (XPInf : XR) OPEN) []) 0 =
        Ok (mkFim (tg (XFin 0 : XR) FROZEN (XPInf : XR) NARROW) [1])).
    { unfold fim_init1. cbn [fi_g fi_l].
      change (setArrivalTime (tg (XPInf : XR) OPEN (XPInf : XR) OPEN) 0 n0) with (Ok (tg (XFin 0 : XR) OPEN (XPInf : XR) OPEN)). cbn [bind].
      change (setState (tg (XFin 0 : XR) OPEN (XPInf : XR) OPEN) 0 FROZEN) with (Ok (tg (XFin 0 : XR) FROZEN (XPInf : XR) OPEN)). cbn [bind].
      change (getNeighbors (g_sh (tg (XFin 0 : XR) FROZEN (XPInf : XR) OPEN)) 0) with (Ok [1; 2]). cbn [bind foldM fi_g fi_l].
      change (getCell (tg (XFin 0 : XR) FROZEN (XPInf : XR) OPEN) 1) with (Ok (tc (XPInf : XR) (XFin 1 : XR) OPEN 1)). cbn [bind].
      rewrite tg_free. cbn [c_state tc fmstate_eqb negb andb].
      change (setState (tg (XFin 0 : XR) FROZEN (XPInf : XR) OPEN) 1 NARROW) with (Ok (tg (XFin 0 : XR) FROZEN (XPInf : XR) NARROW)). cbn [bind fi_g fi_l].
      change (getCell (tg (XFin 0 : XR) FROZEN (XPInf : XR) NARROW) 2) with (Ok (tc (XPInf : XR) (XFin 0 : XR) OPEN 2)). cbn [bind].
      rewrite tg_occ. reflexivity. }
    assert (Hinit1 : fim_init1 (mkFim (tg (XFin 0 : XR) FROZEN (XPInf : XR) NARROW) [1]) 1 =
        Ok (mkFim (tg (XFin 0 : XR) FROZEN (XFin 0 : XR) FROZEN) [1])).
    { unfold fim_init1. cbn [fi_g fi_l].
      change (setArrivalTime (tg (XFin 0 : XR) FROZEN (XPInf : XR) NARROW) 1 n0) with (Ok (tg (XFin 0 : XR) FROZEN (XFin 0 : XR) NARROW)). cbn [bind].
      change (setState (tg (XFin 0 : XR) FROZEN (XFin 0 : XR) NARROW) 1 FROZEN) with (Ok (tg (XFin 0 : XR) FROZEN (XFin 0 : XR) FROZEN)). cbn [bind].
      change (getNeighbors (g_sh (tg (XFin 0 : XR) FROZEN (XFin 0 : XR) FROZEN)) 1) with (Ok [0; 3]). cbn [bind foldM fi_g fi_l].
      change (getCell (tg (XFin 0 : XR) FROZEN (XFin 0 : XR) FROZEN) 0) with (Ok (tc (XFin 0 : XR) (XFin 1 : XR) FROZEN 0)). cbn [bind c_state tc fmstate_eqb andb fi_g fi_l].
      change (getCell (tg (XFin 0 : XR) FROZEN (XFin 0 : XR) FROZEN) 3) with (Ok (tc (XPInf : XR) (XFin 0 : XR) OPEN 3)). cbn [bind].
      rewrite tg_occ. reflexivity. }
    unfold fim_run. cbn [foldM]. rewrite Hinit. cbn [bind]. rewrite Hinit1. cbn [bind fi_g fi_l fim_loop fim_pass].
    change (getArrivalTime (tg (XFin 0 : XR) FROZEN (XFin 0 : XR) FROZEN) 1) with (Ok (XFin 0 : XR)). cbn [bind].
    rewrite tg_solve00. cbn [bind].
    change (setArrivalTime (tg (XFin 0 : XR) FROZEN (XFin 0 : XR) FROZEN) 1 (XPInf : XR)) with (Ok (tg (XFin 0 : XR) FROZEN (XPInf : XR) FROZEN)). cbn [bind].
    change (nleb (nabs (nsub (XFin 0 : XR) (XPInf : XR))) (XFin 0 : XR)) with false. cbn [app bind fim_pass].
    change (getArrivalTime (tg (XFin 0 : XR) FROZEN (XPInf : XR) FROZEN) 1) with (Ok (XPInf : XR)). cbn [bind].
    rewrite tg_solve by (left; reflexivity). cbn [bind]. fold q.
    change (setArrivalTime (tg (XFin 0 : XR) FROZEN (XPInf : XR) FROZEN) 1 (XFin q : XR)) with (Ok (tg (XFin 0 : XR) FROZEN (XFin q : XR) FROZEN)). cbn [bind].
    change (nleb (nabs (nsub (XPInf : XR) (XFin q : XR))) (XFin 0 : XR)) with false. cbn [app bind fim_pass].
    change (getArrivalTime (tg (XFin 0 : XR) FROZEN (XFin q : XR) FROZEN) 1) with (Ok (XFin q : XR)). cbn [bind].
    rewrite tg_solve by (right; reflexivity). cbn [bind]. fold q.
    change (setArrivalTime (tg (XFin 0 : XR) FROZEN (XFin q : XR) FROZEN) 1 (XFin q : XR)) with (Ok (tg (XFin 0 : XR) FROZEN (XFin q : XR) FROZEN)). cbn [bind].
    replace (nleb (nabs (nsub (XFin q : XR) (XFin q : XR))) (XFin 0 : XR)) with true.
    2:{ symmetry. change (Rleb (Rabs (q - q)) 0 = true). apply Rleb_true. rewrite Rminus_diag_eq, Rabs_R0 by reflexivity. lra. }
    change (getNeighbors (g_sh (tg (XFin 0 : XR) FROZEN (XFin q : XR) FROZEN)) 1) with (Ok [0; 3]). cbn [bind foldM].
    unfold fim_neighbor.
    change (getCell (tg (XFin 0 : XR) FROZEN (XFin q : XR) FROZEN) 0) with (Ok (tc (XFin 0 : XR) (XFin 1 : XR) FROZEN 0)). cbn [bind].
    rewrite tg_free. cbn [c_state tc fmstate_eqb negb andb]. rewrite tg_solve0 by reflexivity. cbn [bind].
    rewrite inf_not_better. cbn [bind].
    change (getCell (tg (XFin 0 : XR) FROZEN (XFin q : XR) FROZEN) 3) with (Ok (tc (XPInf : XR) (XFin 0 : XR) OPEN 3)). cbn [bind].
    rewrite tg_occ. cbn [c_state tc fmstate_eqb negb andb bind].
    change (setState (tg (XFin 0 : XR) FROZEN (XFin q : XR) FROZEN) 1 FROZEN) with (Ok (tg (XFin 0 : XR) FROZEN (XFin q : XR) FROZEN)).
    cbn [bind app orb]. reflexivity.
  - destruct tg_problem as [[A [B [C _]]] _]. split; [exact A|]. split; [exact B|]. split; [exact C|].
    split; [repeat constructor; cbn; intuition lia|]. cbn [app]. intros i [<-|[<-|[]]]; cbn; lia.
  - apply (nbrs_spec [2;2] 0 1); [repeat constructor; lia|cbn; lia|cbn; auto].
  - eexists. split; [reflexivity|apply tg_free].
Qed.

(** FMMX.v - FMM in exact arithmetic refines the abstract step of FMMAbs. *)
From Coq Require Import Reals Lra Permutation Sorted FunctionalExtensionality.
From Verif Require Import Base BaseFacts Num NumXR NumLaws Grid GridFacts GridUpd GridMore Spec Obs Eikonal
  FMMModel HeapRef HeapLaws Frame FMMStruct EikR Solution XGrid FMMAbs.
Open Scope Z_scope.

Lemma frame_slow I g g' : frame I g g' -> forall i, slow g' i = slow g i.
Proof.
  intros HF i. pose proof HF as [_ [E2 [_ [_ [E5 H]]]]]. unfold slow. rewrite E2.
  destruct (g_leaf g); auto. destruct (getCell g i) as [c|e] eqn:Ec.
  - destruct (H i c Ec) as [c' [H1 [H2 _]]]. rewrite H1, H2. reflexivity.
  - destruct (getCell g' i) as [c'|e'] eqn:Ec'; [|reflexivity].
    destruct (frame_back _ _ _ _ _ HF Ec') as [c [Hc _]]. congruence.
Qed.

Lemma frame_reals I g g' : frame I g g' -> reals_ok g -> reals_ok g'.
Proof.
  intros HF [[h [H1 H2]] H3]. split.
  - exists h. split; [|exact H2]. destruct HF as [_ [E2 _]]. congruence.
  - intros i c' Hc'. destruct (frame_back _ _ _ _ _ HF Hc') as [c [Hc [E _]]]. rewrite E. eauto.
Qed.

Lemma times_set g j u g' : setArrivalTime g j (XFin u : XR) = Ok g' -> times g' = upd (times g) j u.
Proof.
  intros H. apply functional_extensionality. intros i. unfold times, getArrivalTime, upd.
  rewrite (updCell_get _ _ _ _ i H).
  destruct (Z.eqb_spec j i) as [Hne|Hne], (Z.eq_dec i j) as [E|E]; try congruence.
  subst i. destruct (proj1 (updCell_ok _ _ _ _) H) as [c [Hc _]]. rewrite Hc. reflexivity.
Qed.

Lemma times_upd_keep (g : grid XR) j fn g' : updCell g j fn = Ok g' -> (forall c, c_val (fn c) = c_val c) ->
  times g' = times g.
Proof.
  intros H Hv. apply functional_extensionality. intros i. unfold times, getArrivalTime.
  rewrite (updCell_get _ _ _ _ i H). destruct (Z.eqb_spec j i) as [->|Hne]; [|reflexivity].
  destruct (getCell g i); cbn [bind]; rewrite ?Hv; reflexivity.
Qed.

Section FMMX.
Variable HO : HeapOps XR.
Variable HL : HeapLaws HO.
Variable dims : list Z.
Hypothesis Hd2 : dims2 dims.
Hypothesis Hlt : 2 * box_size dims <= 4294967296.
Variable cfg : fmm_cfg (N := XR).
Hypothesis Hcfg : fc_strat cfg = NOHEUR.
Variable init : list Z.
Hypothesis Hnd : NoDup init.
Hypothesis Hrng : forall i, In i init -> 0 <= i < box_size dims.
Variable g0 : grid XR.
Hypothesis Hg0 : grid_ok dims g0.
Hypothesis Hreal : reals_ok g0.
Hypothesis Hfresh : forall i c, getCell g0 i = Ok c -> c_val c = XPInf /\ c_state c = OPEN /\ c_h c = XFin 0.
Hypothesis Hadj : forall i j, In i init -> In j init -> adjacent dims i j -> ~ free g0 j.

Let Hp : proper dims := dims2_proper' dims Hd2.
Let fr := free g0.
Let f := slow g0.
Let Hf : forall i, fr i -> (0 < f i)%R.
Proof. intros i Hi. apply slow_pos; assumption. Qed.
Let Hheur : heur_ok dims cfg := or_introl Hcfg.

(** concrete part of the invariant *)
Record XS (g : grid XR) (h : heap HO) (log : list Z) : Prop := {
  xs_s : SInv HO HL dims init g h log;
  xs_frame : frame (fun i => In i init) g0 g;
  xs_tok : times_ok g;
  xs_h : forall i c, getCell g i = Ok c -> c_h c = XFin 0;
  xs_ord : hord HL (key g) h
}.

Lemma fmm_heur_none g j : fmm_heur cfg g j = Ok g.
Proof. unfold fmm_heur. rewrite Hcfg. reflexivity. Qed.

Lemma xs_nonan g h log i : XS g h log -> nisnan (key g i) = false.
Proof.
  intros X. unfold key, getTotalValue. destruct (getCell g i) as [c|] eqn:Hc; [|reflexivity].
  rewrite (xs_h _ _ _ X i c Hc). destruct (xs_tok _ _ _ X i c Hc) as [->|[r [-> _]]]; reflexivity.
Qed.

Lemma xs_key g h log i t : XS g h log -> times g i = Some t -> key g i = XFin t.
Proof.
  intros X Ht. unfold times, getArrivalTime in Ht. unfold key, getTotalValue.
  destruct (getCell g i) as [c|] eqn:Hc; [|discriminate]. cbn [bind] in Ht.
  rewrite (xs_h _ _ _ X i c Hc). destruct (c_val c) as [r| | |]; try discriminate.
  injection Ht as ->. cbn. rewrite Rplus_0_r. reflexivity.
Qed.

Lemma xs_free g h log j c : XS g h log -> getCell g j = Ok c -> isOccupied c = false -> fr j.
Proof. intros X Hc Ho. apply (frame_free_inv _ _ _ _ (xs_frame _ _ _ X)). exists c; auto. Qed.

Lemma better_X (u t : R) : isTimeBetterThan (XFin u : XR) (XFin t) = true <-> (u + M < t)%R.
Proof. unfold isTimeBetterThan. rewrite xr_margin. cbn. apply Rltb_true. Qed.

Notation INN m v log pre g h := (Inner dims init fr f m v log pre (times g) (fun x => In x (helems HO h))).

Lemma neighbor_X m v log pre st j :
  XS (fs_g st) (fs_h st) (m :: log) -> INN m v log pre (fs_g st) (fs_h st) ->
  adjacent dims m j -> ~ In j pre ->
  exists st', fmm_neighbor HO cfg st j = Ok st' /\ XS (fs_g st') (fs_h st') (m :: log) /\
    INN m v log (pre ++ [j]) (fs_g st') (fs_h st').
Proof.
  intros X I Ha Hpre. pose proof X as [S F Tok Hh Ord].
  pose proof (adjacent_range _ _ _ Ha) as [Hmr Hjr].
  assert (Hside : free (fs_g st) j -> In j init -> In j (m :: log)).
  { intros Hfree Hj. eapply (inner_src dims init fr f Hadj); eauto. apply (frame_free_inv _ _ _ _ F), Hfree. }
  destruct (fmm_neighbor_ok XR_laws HO HL dims Hd2 Hlt cfg init Hheur st j (m :: log) S Hjr Hside) as [st' [Hst' S']].
  exists st'. split; [exact Hst'|].
  pose proof (fmm_neighbor_frame (fun i => In i init) HO cfg _ _ _ Hst') as F'.
  pose proof S as [Ig Iw Ind Ir Is If In_].
  unfold fmm_neighbor in Hst'. destruct (getCell_in dims (fs_g st) j Ig Hjr) as [c Hc]. rewrite Hc in Hst'. cbn [bind] in Hst'.
  destruct (fmstate_eqb (c_state c) FROZEN) eqn:EF; cbn [orb] in Hst'.
  { injection Hst' as <-. split; [exact X|]. apply inner_skip; [exact I|left]. apply (If j c Hc). apply eqb_state, EF. }
  destruct (isOccupied c) eqn:EO.
  { injection Hst' as <-. split; [exact X|]. apply inner_skip; [exact I|right]. intros H.
    apply (frame_free _ _ _ _ F) in H. destruct H as [c' [Hc' H]]. assert (c' = c) by congruence. congruence. }
  apply eqb_state_false in EF.
  assert (Hfj : fr j) by (eapply xs_free; eauto).
  assert (Hnl : ~ In j (m :: log)) by (intros H; apply EF, (If j c Hc), H).
  assert (Hji : ~ In j init) by (intros H; apply Hnl, Hside; [exists c; auto|exact H]).
  rewrite (solveEikonal_X dims (fs_g st) j Hd2 Hlt Ig Tok (frame_reals _ _ _ F Hreal) (ex_intro _ c (conj Hc EO)) Hjr) in Hst'.
  rewrite (frame_slow _ _ _ F) in Hst'. fold f in Hst'. cbn [bind] in Hst'.
  rewrite fmm_heur_none in Hst'. cbn [bind] in Hst'. rewrite Hc in Hst'. cbn [bind] in Hst'.
  set (T := times (fs_g st)) in *.
  destruct (fmstate_eqb (c_state c) NARROW) eqn:EN.
  - apply eqb_state in EN.
    assert (Hin : In j (helems HO (fs_h st))) by (apply (In_ j c Hc), EN).
    destruct (b_time _ _ _ _ _ _ _ (i_base _ _ _ _ _ _ _ _ _ _ I) j (or_introl Hin)) as [t Ht].
    pose proof (queued_below dims init fr f Hf _ _ _ _ _ _ j t I Hin Hji Ht) as Hne.
    assert (Eik : eik dims (f j) T j = Some (RF (f j) M (below t (somes (dmins dims T j))))).
    { unfold eik. rewrite Ht. cbn [upw]. destruct (below t (somes (dmins dims T j))); [congruence|reflexivity]. }
    rewrite Eik in Hst'. cbn [ox] in Hst'. set (u := RF (f j) M (below t (somes (dmins dims T j)))) in *.
    assert (Hval : c_val c = XFin t).
    { pose proof (times_val _ _ _ Tok Hc) as E. fold T in E. rewrite Ht in E. exact E. }
    rewrite Hval in Hst'.
    destruct (isTimeBetterThan (XFin u : XR) (XFin t)) eqn:EB.
    + apply better_X in EB.
      pose proof (inner_improve dims init fr f Hp Hf _ _ _ _ _ _ j t I Hin Hji Ht Ha Hpre EB) as I'. fold T u in I'.
      assert (Hu0 : (0 <= u)%R).
      { eapply (base_nonneg dims init fr f); [apply (i_base _ _ _ _ _ _ _ _ _ _ I')|apply (upd_same _ j)]. }
      apply bind_ok in Hst'; destruct Hst' as [g2 [Hg2 Hst']]. apply bind_ok in Hst'; destruct Hst' as [h2 [Hh2 Hst']]. injection Hst' as <-. cbn [fs_g fs_h] in *.
      destruct (hl_incr HO HL (key g2) j (fs_h st) Iw Hin) as [h2' [Hh2' [Hw2 Hpm]]].
      assert (h2' = h2) by congruence. subst h2'.
      assert (X' : XS g2 h2 (m :: log)).
      { constructor; auto.
        - eapply frame_trans; eauto.
        - intros i c' Hc'. rewrite (updCell_get _ _ _ _ i Hg2) in Hc'. destruct (j =? i) eqn:Eji.
          + destruct (getCell (fs_g st) i); [|discriminate]. injection Hc' as <-. right. exists u. auto.
          + eapply Tok; eauto.
        - intros i c' Hc'. rewrite (updCell_get _ _ _ _ i Hg2) in Hc'. destruct (j =? i) eqn:Eji.
          + destruct (getCell (fs_g st) i) as [c2|] eqn:E2; [|discriminate]. injection Hc' as <-. cbn. eauto.
          + eauto.
        - assert (Hk : forall i, key g2 i = if j =? i then XFin u else key (fs_g st) i).
          { intros i. unfold key at 1. rewrite (updCell_get _ _ _ _ i Hg2). destruct (Z.eqb_spec j i) as [<-|Hne']; [|reflexivity].
            rewrite Hc. unfold getTotalValue. cbn. rewrite (Hh j c Hc). rewrite Rplus_0_r. reflexivity. }
          eapply (hl_ord_incr HO HL (key (fs_g st)) (key g2) j (fs_h st) h2); auto.
          + clear - Ind. induction (helems HO (fs_h st)); [constructor|]. inversion Ind; subst.
            constructor; [|auto]. intros H; apply H1, in_or_app; auto.
          + intros x _ Hx. rewrite Hk. destruct (Z.eqb_spec j x); [congruence|reflexivity].
          + rewrite Hk, Z.eqb_refl. rewrite (xs_key _ _ _ j t X Ht). cbn. apply Rltb_false.
            pose proof Rmargin_pos. lra.
          + intros x _. eapply xs_nonan. exact X. }
      split; [exact X'|]. rewrite (times_set _ _ _ _ Hg2). fold T.
      eapply inner_hs; [|exact I']. intros x. cbn. split; apply Permutation_in; [exact Hpm|symmetry; exact Hpm].
    + injection Hst' as <-. cbn [fs_g fs_h] in *. split; [constructor; auto|].
      apply (inner_keep dims init fr f Hp Hf _ _ _ _ _ _ j t); auto. fold T u.
      destruct (Rle_dec t (u + M)) as [L|L]; [exact L|].
      exfalso. assert (K : isTimeBetterThan (XFin u : XR) (XFin t) = true) by (apply better_X; lra). congruence.
  - apply eqb_state_false in EN.
    assert (Hnin : ~ In j (helems HO (fs_h st))) by (intros H; apply EN, (In_ j c Hc); auto).
    apply bind_ok in Hst'; destruct Hst' as [g2 [Hg2 Hst']]. apply bind_ok in Hst'; destruct Hst' as [g3 [Hg3 Hst']]. injection Hst' as <-. cbn [fs_g fs_h] in *.
    destruct (hl_push HO HL (key g3) j (fs_h st) Iw Hnin) as [Hw3 Hpm].
    destruct (inner_new dims init fr f Hp Hf m v log pre T (fun x => In x (helems HO (fs_h st)))
                (fun x => In x (helems HO (hpush HO (key g3) j (fs_h st)))) j I Hnin Hnl Hji Hfj Ha) as [K1 [K2 K3]].
    { intros x. split; intros H.
      - eapply Permutation_in in H; [|exact Hpm]. destruct H; auto.
      - eapply Permutation_in; [symmetry; exact Hpm|]. destruct H; [right|left]; auto. }
    assert (Eik : eik dims (f j) T j = Some (RF (f j) M (somes (dmins dims T j)))).
    { unfold eik. rewrite K1. cbn [upw]. destruct (somes (dmins dims T j)); [congruence|reflexivity]. }
    rewrite Eik in Hg3. cbn [ox] in Hg3. set (u := RF (f j) M (somes (dmins dims T j))) in *.
    assert (Hu0 : (0 <= u)%R).
    { eapply (base_nonneg dims init fr f); [apply (i_base _ _ _ _ _ _ _ _ _ _ K3)|apply (upd_same _ j)]. }
    assert (ET : times g3 = upd T j u).
    { rewrite (times_set _ _ _ _ Hg3). f_equal. eapply times_upd_keep; [exact Hg2|reflexivity]. }
    split; [|rewrite ET; exact K3].
    constructor; auto.
    + eapply frame_trans; eauto.
    + intros i c' Hc'. rewrite (updCell_get _ _ _ _ i Hg3), (updCell_get _ _ _ _ i Hg2) in Hc'. destruct (j =? i) eqn:Eji.
      * destruct (getCell (fs_g st) i); [|discriminate]. injection Hc' as <-. right. exists u. auto.
      * eapply Tok; eauto.
    + intros i c' Hc'. rewrite (updCell_get _ _ _ _ i Hg3), (updCell_get _ _ _ _ i Hg2) in Hc'. destruct (j =? i) eqn:Eji.
      * destruct (getCell (fs_g st) i) as [c2|] eqn:E2; [|discriminate]. injection Hc' as <-. cbn. eauto.
      * eauto.
    + apply (hl_ord_push HO HL); [exact Iw|exact Hnin|].
      eapply (hl_ord_ext HO HL (key (fs_g st))); [exact Iw|exact Ord|].
      intros x Hx. unfold key. rewrite (updCell_get _ _ _ _ x Hg3), (updCell_get _ _ _ _ x Hg2).
      destruct (Z.eqb_spec j x) as [<-|Hne']; [contradiction|reflexivity].
Qed.

Notation HEAD g h log := (Head dims init fr f (times g) (fun x => In x (helems HO h)) log).

Lemma step_X st log :
  XS (fs_g st) (fs_h st) log -> HEAD (fs_g st) (fs_h st) log ->
  (helems HO (fs_h st) = [] /\ fmm_step HO cfg st = Ok None) \/
  exists m st', fmm_step HO cfg st = Ok (Some (m, st')) /\
    XS (fs_g st') (fs_h st') (m :: log) /\ HEAD (fs_g st') (fs_h st') (m :: log).
Proof.
  intros X Hd. pose proof X as [S F Tok Hh Ord]. unfold fmm_step.
  destruct (hpop HO (key (fs_g st)) (fs_h st)) as [[m h1]|] eqn:Hpop.
  2:{ left. split; [|reflexivity]. apply (hl_pop_none HO HL) in Hpop; [exact Hpop|apply S]. }
  right. exists m. pose proof S as [Ig Iw Ind Ir Is If In_].
  destruct (hl_pop HO HL _ _ _ _ Iw Hpop) as [_ Hpm].
  assert (Hmin : In m (helems HO (fs_h st))).
  { eapply Permutation_in; [symmetry; exact Hpm|left; reflexivity]. }
  assert (Hm : 0 <= m < box_size dims) by (apply Ir, in_or_app; left; exact Hmin).
  pose proof Ig as [Hsh _]. rewrite Hsh, getNeighbors_eq by assumption. cbn [bind].
  destruct (getCell_in dims (fs_g st) m Ig Hm) as [c Hc].
  destruct (updCell_in (fs_g st) m c (fun c => with_state c FROZEN) Hc) as [g1 Hg1].
  change (updCell (fs_g st) m (fun c => with_state c FROZEN)) with (setState (fs_g st) m FROZEN) in Hg1.
  rewrite Hg1. cbn [bind]. pose proof (SInv_pop HO HL dims init _ _ _ _ _ _ S Hpop Hg1) as S1.
  pose proof (h_base _ _ _ _ _ _ _ Hd) as B.
  destruct (b_time _ _ _ _ _ _ _ B m (or_introl Hmin)) as [v Hv].
  assert (Hkeys : forall x, In x (helems HO (fs_h st)) -> exists t, times (fs_g st) x = Some t /\ key (fs_g st) x = XFin t).
  { intros x Hx. destruct (b_time _ _ _ _ _ _ _ B x (or_introl Hx)) as [t Ht]. exists t. split; [exact Ht|].
    eapply xs_key; eauto. }
  destruct (hl_ord_pop HO HL _ _ _ _ Iw Ord Hpop) as [Ord1 Hmn].
  { intros x Hx. destruct (Hkeys x Hx) as [t [_ ->]]. reflexivity. }
  assert (Hcell1 : forall i, getCell g1 i = if m =? i then match getCell (fs_g st) i with Ok c => Ok (with_state c FROZEN) | Fail e => Fail e end else getCell (fs_g st) i).
  { intros i. apply (updCell_get _ _ _ _ i Hg1). }
  assert (X1 : XS g1 h1 (m :: log)).
  { constructor; auto.
    - eapply frame_trans; [exact F|]. eapply setState_frame; exact Hg1.
    - intros i c' Hc'. rewrite Hcell1 in Hc'. destruct (m =? i).
      + destruct (getCell (fs_g st) i) as [c2|] eqn:E2; [|discriminate]. injection Hc' as <-. cbn. eapply Tok; eauto.
      + eapply Tok; eauto.
    - intros i c' Hc'. rewrite Hcell1 in Hc'. destruct (m =? i).
      + destruct (getCell (fs_g st) i) as [c2|] eqn:E2; [|discriminate]. injection Hc' as <-. cbn. eauto.
      + eauto.
    - eapply (hl_ord_ext HO HL (key (fs_g st))); [apply S1|exact Ord1|].
      intros x _. unfold key. rewrite Hcell1. destruct (m =? x); [|reflexivity].
      destruct (getCell (fs_g st) x); reflexivity. }
  assert (ET : times g1 = times (fs_g st)) by (eapply times_upd_keep; [exact Hg1|reflexivity]).
  assert (NDm : NoDup (m :: helems HO h1)).
  { eapply Permutation_NoDup; [exact Hpm|]. clear - Ind. induction (helems HO (fs_h st)); [constructor|].
    inversion Ind; subst. constructor; [|auto]. intros H; apply H1, in_or_app; auto. }
  assert (I0 : INN m v log [] g1 h1).
  { rewrite ET. eapply (pop_inner dims init fr f Hp Hf _ (fun x => In x (helems HO (fs_h st)))); eauto.
    - intros x t Hx Ht. specialize (Hmn x Hx). rewrite (xs_key _ _ _ x t X Ht), (xs_key _ _ _ m v X Hv) in Hmn.
      cbn in Hmn. apply Rltb_false in Hmn. exact Hmn.
    - intros x. inversion NDm; subst. split.
      + intros Hx. split; [|intros ->; contradiction]. eapply Permutation_in; [symmetry; exact Hpm|right; exact Hx].
      + intros [Hx Hne]. eapply Permutation_in in Hx; [|exact Hpm]. destruct Hx as [Hx|Hx]; [congruence|exact Hx]. }
  destruct (foldM_seq (fun pre s => XS (fs_g s) (fs_h s) (m :: log) /\ INN m v log pre (fs_g s) (fs_h s))
              (fmm_neighbor HO cfg) (nbrs dims m) (mkFst g1 h1)) as [st' [Hfold [X' I']]].
  - split; [exact X1|exact I0].
  - intros pre x post s E [Xs Is']. apply neighbor_X; auto.
    + apply nbrs_spec; auto. rewrite E. apply in_or_app; right; left; reflexivity.
    + intros Hin. pose proof (nbrs_NoDup dims m Hp Hm) as ND. rewrite E in ND.
      apply NoDup_remove_2 in ND. apply ND, in_or_app; left; exact Hin.
  - exists st'. rewrite Hfold. cbn [bind]. split; [reflexivity|]. split; [exact X'|].
    eapply inner_head; eauto.
Qed.

Lemma init_X : exists st, foldM (fmm_init1 HO cfg) init (mkFst g0 (hempty HO)) = Ok st /\
  XS (fs_g st) (fs_h st) [] /\ HEAD (fs_g st) (fs_h st) [].
Proof.
  destruct (fmm_init_ok HO HL dims cfg init Hheur g0 Hg0 Hnd Hrng) as [st [H1 [H2 H3]]].
  { intros i c Hc. apply (Hfresh i c Hc). }
  exists st. split; [exact H1|].
  destruct (foldM_seq (fun pre s => frame (fun i => In i init) g0 (fs_g s) /\ grid_ok dims (fs_g s) /\
      hwf HL (fs_h s) /\ Permutation (helems HO (fs_h s)) pre /\ hord HL (key (fs_g s)) (fs_h s) /\
      (forall i c, getCell (fs_g s) i = Ok c -> c_h c = XFin 0 /\
          c_val c = (if in_dec Z.eq_dec i pre then XFin 0 else XPInf)))
    (fmm_init1 HO cfg) init (mkFst g0 (hempty HO))) as [st2 [G1 [G2 [G3 [G4 [G5 [G6 G7]]]]]]].
  - cbn [fs_g fs_h]. split; [apply frame_refl|]. split; [exact Hg0|]. destruct (hl_empty HO HL) as [E1 E2].
    split; [exact E1|]. split; [rewrite E2; constructor|]. split; [apply hl_ord_empty|].
    intros i c Hc. destruct (Hfresh i c Hc) as [A [_ A3]]. split; [exact A3|exact A].
  - intros pre i post s E [A1 [A2 [A3 [A4 [A5 A6]]]]].
    assert (Hii : In i init) by (rewrite E; apply in_or_app; right; left; reflexivity).
    pose proof (Hrng i Hii) as Hi.
    assert (Hnpre : ~ In i pre).
    { pose proof Hnd as ND. rewrite E in ND. apply NoDup_remove_2 in ND. intros H; apply ND, in_or_app; auto. }
    unfold fmm_init1. destruct (getCell_in dims (fs_g s) i A2 Hi) as [c Hc].
    destruct (updCell_in (fs_g s) i c (fun c => with_val c n0) Hc) as [g1 Hg1].
    change (updCell (fs_g s) i (fun c => with_val c n0)) with (setArrivalTime (fs_g s) i n0) in Hg1.
    rewrite Hg1. cbn [bind]. rewrite fmm_heur_none. cbn [bind]. eexists. split; [reflexivity|]. cbn [fs_g fs_h].
    split; [eapply frame_trans; [exact A1|]; eapply setArrivalTime_frame; [exact Hg1|left; exact Hii]|].
    split; [exact (updCell_grid_ok _ _ _ _ _ Hg1 A2)|].
    assert (Hni : ~ In i (helems HO (fs_h s))) by (intros K; apply Hnpre; eapply Permutation_in; eauto).
    destruct (hl_push HO HL (key g1) i (fs_h s) A3 Hni) as [B2 Hpm]. split; [exact B2|].
    split; [rewrite Hpm, A4; apply Permutation_cons_append|]. split.
    + apply (hl_ord_push HO HL); [exact A3|exact Hni|]. eapply (hl_ord_ext HO HL (key (fs_g s))); [exact A3|exact A5|].
      intros x Hx. unfold key. rewrite (updCell_get _ _ _ _ x Hg1). destruct (Z.eqb_spec i x) as [<-|Hne]; [|reflexivity].
      exfalso. apply Hnpre. eapply Permutation_in; eauto.
    + intros k c' Hc'. rewrite (updCell_get _ _ _ _ k Hg1) in Hc'. destruct (Z.eqb_spec i k) as [<-|Hne].
      * rewrite Hc in Hc'. injection Hc' as <-. cbn [c_h c_val with_val]. split; [apply (A6 i c Hc)|].
        destruct (in_dec Z.eq_dec i (pre ++ [i])) as [_|H]; [reflexivity|exfalso; apply H, in_or_app; right; left; reflexivity].
      * destruct (A6 k c' Hc') as [B1 B3]. split; [exact B1|]. rewrite B3.
        destruct (in_dec Z.eq_dec k pre) as [C1|C1], (in_dec Z.eq_dec k (pre ++ [i])) as [C2|C2]; auto; exfalso.
        -- apply C2, in_or_app; auto.
        -- apply in_app_or in C2. destruct C2 as [C2|[C2|[]]]; congruence.
  - assert (st2 = st) by congruence. subst st2. split.
    + constructor; auto.
      * intros i c Hc. destruct (G7 i c Hc) as [_ ->]. destruct (in_dec Z.eq_dec i init); [right; exists 0%R; split; [reflexivity|lra]|left; reflexivity].
      * intros i c Hc. apply (G7 i c Hc).
    + apply head_init; auto.
      * intros i. split; apply Permutation_in; [exact H3|symmetry; exact H3].
      * intros i Hi. destruct (getCell_in dims (fs_g st) i G3 (Hrng i Hi)) as [c Hc]. rewrite (times_get _ _ _ Hc).
        destruct (G7 i c Hc) as [_ ->]. destruct (in_dec Z.eq_dec i init); [reflexivity|contradiction].
      * intros i Hi. unfold times, getArrivalTime. destruct (getCell (fs_g st) i) as [c|] eqn:Hc; [|reflexivity].
        cbn [bind]. destruct (G7 i c Hc) as [_ ->]. destruct (in_dec Z.eq_dec i init); [contradiction|reflexivity].
Qed.

Lemma loop_X goal : forall fuel st log,
  XS (fs_g st) (fs_h st) log -> HEAD (fs_g st) (fs_h st) log ->
  (Z.to_nat (box_size dims) < fuel + length log)%nat ->
  exists st' log', fmm_loop HO fuel cfg goal st log = Ok (st', log') /\
    XS (fs_g st') (fs_h st') log' /\ HEAD (fs_g st') (fs_h st') log' /\
    (helems HO (fs_h st') = [] \/ exists r, log' = goal :: r).
Proof.
  induction fuel as [|k IH]; intros st log X Hd Hfuel.
  { pose proof (log_bound HO HL dims init _ _ _ (xs_s _ _ _ X)). lia. }
  cbn [fmm_loop]. destruct (step_X st log X Hd) as [[He Hs]|[m [st' [Hs [X' Hd']]]]]; rewrite Hs; cbn [bind].
  - exists st, log. auto.
  - destruct (Z.eqb_spec m goal) as [->|Hne].
    + exists st', (goal :: log). repeat (split; [assumption || reflexivity|]). right; eauto.
    + apply IH; auto. cbn [length]. lia.
Qed.

Theorem run_X goal fuel : (Z.to_nat (box_size dims) < fuel)%nat ->
  exists st log, fmm_run HO fuel cfg goal init g0 (hempty HO) = Ok (st, log) /\
    XS (fs_g st) (fs_h st) log /\ HEAD (fs_g st) (fs_h st) log /\
    (helems HO (fs_h st) = [] \/ exists r, log = goal :: r).
Proof.
  intros Hfuel. destruct init_X as [st [H1 [H2 H3]]]. unfold fmm_run. rewrite H1. cbn [bind].
  apply loop_X; auto. cbn; lia.
Qed.

Theorem run_solution goal fuel st log :
  ~ (0 <= goal < box_size dims) ->
  (Z.to_nat (box_size dims) < fuel)%nat -> fmm_run HO fuel cfg goal init g0 (hempty HO) = Ok (st, log) ->
  solution dims (fun i => In i init) fr f (2 * M) (times (fs_g st)).
Proof.
  intros Hg Hfuel Hrun. destruct (run_X goal fuel Hfuel) as [st2 [log2 [R1 [X [Hd Hend]]]]].
  assert (st2 = st /\ log2 = log) as [-> ->] by (split; congruence).
  destruct Hend as [He|[r ->]].
  - apply (head_solution dims init fr f Hp _ log). eapply head_hs; [|exact Hd]. rewrite He. cbn. tauto.
  - exfalso. apply Hg. apply (si_rng _ _ _ _ _ _ _ (xs_s _ _ _ X)). apply in_or_app; right; left; reflexivity.
Qed.

End FMMX.

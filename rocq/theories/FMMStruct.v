(** FMMStruct.v - structural invariant of FMM, for every arithmetic and every
    heap whose operations keep the content (C15, C21, C22). *)
From Coq Require Import Permutation.
From Verif Require Import Base BaseFacts Num NumLaws Grid GridFacts GridUpd GridMore Spec Obs Eikonal
  FMMModel HeapRef HeapLaws Frame.
Open Scope Z_scope.

(** foldM with the processed prefix *)
Lemma foldM_seq {A S} (P : list A -> S -> Prop) (f : S -> A -> res S) l s :
  P [] s ->
  (forall pre x post s, l = pre ++ x :: post -> P pre s -> exists s', f s x = Ok s' /\ P (pre ++ [x]) s') ->
  exists s', foldM f l s = Ok s' /\ P l s'.
Proof.
  intros H0 Hstep.
  assert (Hgo : forall post pre s, l = pre ++ post -> P pre s -> exists s', foldM f post s = Ok s' /\ P l s').
  { induction post as [|x post IH]; intros pre s1 E Hp; cbn.
    - exists s1. split; [reflexivity|]. rewrite E, app_nil_r. exact Hp.
    - destruct (Hstep pre x post s1 E Hp) as [s2 [H1 H2]]. rewrite H1. cbn.
      apply (IH (pre ++ [x])); [rewrite <- app_assoc; exact E|exact H2]. }
  apply (Hgo l [] s eq_refl H0).
Qed.

Lemma dims2_proper' dims : dims2 dims -> proper dims.
Proof. unfold dims2, proper; intros H. eapply Forall_impl; [|exact H]. cbn; intros; lia. Qed.

Section Total.
Context {N : Num}.
Variable L : NumLaws N.

Lemma solveEikonal_total dims (g : grid N) i :
  dims2 dims -> 2 * box_size dims <= 4294967296 -> grid_ok dims g -> 0 <= i < box_size dims ->
  exists t, solveEikonal g i = Ok t.
Proof.
  intros H2 Hlt Hg Hi. pose proof (dims2_proper' _ H2) as Hp. unfold solveEikonal, collectT.
  assert (Hd : s_dims (g_sh g) = dims).
  { destruct Hg as [-> _]. rewrite mk_shape_eq; [reflexivity|exact Hp|lia]. }
  rewrite Hd.
  destruct (getCell_in dims g i Hg Hi) as [c Hc].
  destruct (foldM_inv (fun _ => True)
    (fun acc dim => m <- getMinValueInDim g i dim ;; own <- getArrivalTime g i ;;
           if negb (nisinf m) && nltb m own then Ok (acc ++ [m]) else Ok acc)
    (seq 0 (length dims)) [] I) as [ts [Hts _]].
  { intros s d Hin _. apply in_seq in Hin.
    destruct (min_in_dim L dims g (None, None) i d Hp Hlt Hg Hi ltac:(lia)) as [m [b [_ [Hm _]]]].
    { unfold dims2 in H2. rewrite Forall_forall in H2. apply H2, nth_In. lia. }
    rewrite Hm. unfold getArrivalTime. rewrite Hc. cbn [bind].
    destruct (negb (nisinf m) && nltb m (c_val c)); eexists; split; eauto. }
  rewrite Hts. cbn [bind]. destruct ts; [eauto|]. rewrite Hc. cbn. eauto.
Qed.
End Total.

Section Struct.
Context {N : Num}.
Variable L : NumLaws N.
Variable HO : HeapOps N.
Variable HL : HeapLaws HO.
Variable dims : list Z.
Hypothesis Hd2 : dims2 dims.
Hypothesis Hlt : 2 * box_size dims <= 4294967296.
Variable cfg : fmm_cfg (N := N).
Variable init : list Z.

(** the heuristic table covers every cell *)
Definition heur_ok : Prop :=
  fc_strat cfg = NOHEUR \/
  forall i, 0 <= i < box_size dims -> exists d, getPrecomputedDistance cfg (mk_shape dims) i = Ok d.
Hypothesis Hheur : heur_ok.

Let Hp : proper dims := dims2_proper' dims Hd2.

Record SInv (g : grid N) (h : heap HO) (log : list Z) : Prop := {
  si_grid : grid_ok dims g;
  si_wf : hwf HL h;
  si_nd : NoDup (helems HO h ++ log);
  si_rng : forall i, In i (helems HO h ++ log) -> 0 <= i < box_size dims;
  si_src : forall i, In i init -> In i (helems HO h ++ log);
  si_frozen : forall i c, getCell g i = Ok c -> (c_state c = FROZEN <-> In i log);
  si_narrow : forall i c, getCell g i = Ok c -> (c_state c = NARROW <-> In i (helems HO h) /\ ~ In i init)
}.

Lemma fmm_heur_spec g j :
  grid_ok dims g -> 0 <= j < box_size dims ->
  exists g', fmm_heur cfg g j = Ok g' /\ grid_ok dims g' /\
    (forall i c', getCell g' i = Ok c' -> exists c, getCell g i = Ok c /\ c_state c' = c_state c /\
        c_val c' = c_val c /\ c_occ c' = c_occ c /\ (i <> j -> c' = c)).
Proof.
  intros Hg Hj. destruct (getCell_in dims g j Hg Hj) as [c Hc]. pose proof Hg as [Hsh _].
  assert (Hset : forall hv, exists g', setHeuristicTime g j hv = Ok g' /\ grid_ok dims g' /\
    (forall i c', getCell g' i = Ok c' -> exists c, getCell g i = Ok c /\ c_state c' = c_state c /\
        c_val c' = c_val c /\ c_occ c' = c_occ c /\ (i <> j -> c' = c))).
  { intros hv. destruct (updCell_in g j c (fun c => with_h c hv) Hc) as [g' Hg'].
    exists g'. split; [exact Hg'|]. split; [exact (updCell_grid_ok _ _ _ _ _ Hg' Hg)|].
    intros i c' Hc'. rewrite (updCell_get _ _ _ _ i Hg') in Hc'.
    destruct (Z.eqb_spec j i) as [<-|Hne].
    - rewrite Hc in Hc'. injection Hc' as <-. exists c. repeat (split; [auto|]). congruence.
    - exists c'. auto. }
  unfold fmm_heur. destruct (fc_strat cfg) eqn:Es.
  - exists g. split; [reflexivity|]. split; [exact Hg|]. intros i c' Hc'. exists c'. auto.
  - destruct Hheur as [Hh|Hh]; [congruence|]. rewrite Hsh. destruct (Hh j Hj) as [d ->]. cbn [bind].
    rewrite Hc. cbn [bind]. apply Hset.
  - destruct Hheur as [Hh|Hh]; [congruence|]. rewrite Hsh. destruct (Hh j Hj) as [d ->]. cbn [bind].
    apply Hset.
Qed.

Lemma state_cases (s : fmstate) : s <> FROZEN -> s <> NARROW -> s = OPEN.
Proof. destruct s; congruence. Qed.
Lemma eqb_state a b : fmstate_eqb a b = true <-> a = b.
Proof. destruct a, b; cbn; split; congruence. Qed.
Lemma eqb_state_false a b : fmstate_eqb a b = false <-> a <> b.
Proof. destruct a, b; cbn; split; congruence. Qed.

Lemma fmm_neighbor_ok st j log :
  SInv (fs_g st) (fs_h st) log -> 0 <= j < box_size dims ->
  (free (fs_g st) j -> In j init -> In j log) ->
  exists st', fmm_neighbor HO cfg st j = Ok st' /\ SInv (fs_g st') (fs_h st') log.
Proof.
  intros [Ig Iw Ind Ir Is If In_] Hj Hsrc. unfold fmm_neighbor.
  destruct (getCell_in dims (fs_g st) j Ig Hj) as [c Hc]. rewrite Hc. cbn [bind].
  destruct (fmstate_eqb (c_state c) FROZEN) eqn:EF; cbn [orb].
  { exists st. split; [reflexivity|]. constructor; assumption. }
  destruct (isOccupied c) eqn:EO.
  { exists st. split; [reflexivity|]. constructor; assumption. }
  apply eqb_state_false in EF.
  assert (Hnlog : ~ In j log) by (intros H; apply EF, (If j c Hc), H).
  assert (Hnsrc : ~ In j init).
  { intros H. apply Hnlog, Hsrc; [exists c; auto|exact H]. }
  destruct (solveEikonal_total L dims (fs_g st) j Hd2 Hlt Ig Hj) as [t Ht]. rewrite Ht. cbn [bind].
  destruct (fmm_heur_spec (fs_g st) j Ig Hj) as [g1 [Hg1 [Ig1 Hg1c]]]. rewrite Hg1. cbn [bind].
  destruct (getCell_in dims g1 j Ig1 Hj) as [c1 Hc1]. rewrite Hc1. cbn [bind].
  destruct (Hg1c j c1 Hc1) as [c0 [Hc0 [Hst1 _]]]. assert (c0 = c) by congruence. subst c0.
  destruct (fmstate_eqb (c_state c1) NARROW) eqn:EN.
  - apply eqb_state in EN.
    assert (Hin : In j (helems HO (fs_h st))) by (apply (In_ j c Hc); congruence).
    destruct (isTimeBetterThan t (c_val c1)).
    + destruct (updCell_in g1 j c1 (fun c => with_val c t) Hc1) as [g2 Hg2].
      change (updCell g1 j (fun c => with_val c t)) with (setArrivalTime g1 j t) in Hg2.
      rewrite Hg2. cbn [bind].
      destruct (hl_incr HO HL (key g2) j (fs_h st) Iw Hin) as [h2 [Hh2 [Hw2 Hpm]]].
      rewrite Hh2. cbn [bind]. eexists. split; [reflexivity|]. cbn [fs_g fs_h].
      assert (Hpm2 : Permutation (helems HO h2 ++ log) (helems HO (fs_h st) ++ log)) by (apply Permutation_app_tail, Hpm).
      assert (Hcell : forall i c', getCell g2 i = Ok c' -> exists c, getCell (fs_g st) i = Ok c /\ c_state c' = c_state c).
      { intros i c' Hc'. rewrite (updCell_get _ _ _ _ i Hg2) in Hc'. destruct (Z.eqb_spec j i) as [<-|Hne].
        - rewrite Hc1 in Hc'. injection Hc' as <-. exists c. auto.
        - destruct (Hg1c i c' Hc') as [c2 [K1 [K2 _]]]. exists c2; auto. }
      constructor; auto.
      * exact (updCell_grid_ok _ _ _ _ _ Hg2 Ig1).
      * eapply Permutation_NoDup; [symmetry; exact Hpm2|exact Ind].
      * intros i Hi. apply Ir. eapply Permutation_in; eauto.
      * intros i Hi. eapply Permutation_in; [symmetry; exact Hpm2|]. auto.
      * intros i c' Hc'. destruct (Hcell i c' Hc') as [c2 [K1 ->]]. apply If, K1.
      * intros i c' Hc'. destruct (Hcell i c' Hc') as [c2 [K1 ->]]. rewrite (In_ i c2 K1).
        split; intros [A B]; (split; [|exact B]); (eapply Permutation_in; [|exact A]); [symmetry|]; exact Hpm.
    + eexists. split; [reflexivity|]. cbn [fs_g fs_h]. constructor; auto.
      * intros i c' Hc'. destruct (Hg1c i c' Hc') as [c2 [K1 [-> _]]]. apply If, K1.
      * intros i c' Hc'. destruct (Hg1c i c' Hc') as [c2 [K1 [-> _]]]. apply In_, K1.
  - apply eqb_state_false in EN.
    assert (Hnin : ~ In j (helems HO (fs_h st))).
    { intros H. apply EN. rewrite Hst1. apply (In_ j c Hc). auto. }
    destruct (updCell_in g1 j c1 (fun c => with_state c NARROW) Hc1) as [g2 Hg2].
    change (updCell g1 j (fun c => with_state c NARROW)) with (setState g1 j NARROW) in Hg2.
    rewrite Hg2. cbn [bind]. pose proof (updCell_grid_ok _ _ _ _ _ Hg2 Ig1) as Ig2.
    destruct (getCell_in dims g2 j Ig2 Hj) as [c2 Hc2].
    destruct (updCell_in g2 j c2 (fun c => with_val c t) Hc2) as [g3 Hg3].
    change (updCell g2 j (fun c => with_val c t)) with (setArrivalTime g2 j t) in Hg3.
    rewrite Hg3. cbn [bind]. eexists. split; [reflexivity|]. cbn [fs_g fs_h].
    destruct (hl_push HO HL (key g3) j (fs_h st) Iw Hnin) as [Hw3 Hpm].
    assert (Hpm2 : Permutation (helems HO (hpush HO (key g3) j (fs_h st)) ++ log) (j :: (helems HO (fs_h st) ++ log)))
      by (rewrite Hpm; reflexivity).
    assert (Hcell : forall i c', getCell g3 i = Ok c' ->
              (i = j /\ c_state c' = NARROW) \/
              (i <> j /\ exists c, getCell (fs_g st) i = Ok c /\ c_state c' = c_state c)).
    { intros i c' Hc'. rewrite (updCell_get _ _ _ _ i Hg3), (updCell_get _ _ _ _ i Hg2) in Hc'.
      destruct (Z.eqb_spec j i) as [<-|Hne].
      - rewrite Hc1 in Hc'. injection Hc' as <-. left. auto.
      - right. split; [auto|]. destruct (Hg1c i c' Hc') as [c3 [K1 [K2 _]]]. exists c3; auto. }
    constructor; auto.
    + exact (updCell_grid_ok _ _ _ _ _ Hg3 Ig2).
    + eapply Permutation_NoDup; [symmetry; exact Hpm2|]. constructor; [|exact Ind].
      intros H. apply in_app_or in H. tauto.
    + intros i Hi. eapply Permutation_in in Hi; [|exact Hpm2]. destruct Hi as [<-|Hi]; auto.
    + intros i Hi. eapply Permutation_in; [symmetry; exact Hpm2|]. right; auto.
    + intros i c' Hc'. destruct (Hcell i c' Hc') as [[-> ->]|[Hne [c3 [K1 ->]]]].
      * split; [discriminate|contradiction].
      * apply If, K1.
    + intros i c' Hc'. destruct (Hcell i c' Hc') as [[-> ->]|[Hne [c3 [K1 ->]]]].
      * split; [intros _; split; [|exact Hnsrc]|reflexivity].
        eapply Permutation_in; [symmetry; exact Hpm|left; reflexivity].
      * rewrite (In_ i c3 K1). split; intros [A B]; (split; [|exact B]).
        -- eapply Permutation_in; [symmetry; exact Hpm|right; exact A].
        -- eapply Permutation_in in A; [|exact Hpm]. destruct A as [A|A]; [congruence|exact A].
Qed.

(** right after the extraction *)
Lemma SInv_pop g h log m h1 g1 :
  SInv g h log -> hpop HO (key g) h = Some (m, h1) -> setState g m FROZEN = Ok g1 ->
  SInv g1 h1 (m :: log).
Proof.
  intros [Ig Iw Ind Ir Is If In_] Hpop Hg1.
  destruct (hl_pop HO HL _ _ _ _ Iw Hpop) as [Hw1 Hpm].
  assert (Hpm2 : Permutation (helems HO h ++ log) (helems HO h1 ++ m :: log)).
  { rewrite Hpm. cbn. apply Permutation_middle. }
  assert (Hnd : NoDup (m :: helems HO h1)).
  { eapply Permutation_NoDup; [exact Hpm|]. clear - Ind. induction (helems HO h) as [|x l IH]; [constructor|].
    inversion Ind; subst. constructor; [|apply IH; assumption]. intros H; apply H1, in_or_app; auto. }
  constructor; auto.
  - exact (updCell_grid_ok _ _ _ _ _ Hg1 Ig).
  - eapply Permutation_NoDup; eauto.
  - intros i Hi. apply Ir. eapply Permutation_in; [symmetry; exact Hpm2|exact Hi].
  - intros i Hi. eapply Permutation_in; eauto.
  - intros i c Hc. rewrite (updCell_get _ _ _ _ i Hg1) in Hc. destruct (Z.eqb_spec m i) as [<-|Hne].
    + destruct (getCell g m); [|discriminate]. injection Hc as <-. cbn. tauto.
    + rewrite (If i c Hc). cbn. split; [auto|intros [H|H]; [congruence|exact H]].
  - intros i c Hc. rewrite (updCell_get _ _ _ _ i Hg1) in Hc. destruct (Z.eqb_spec m i) as [<-|Hne].
    + destruct (getCell g m); [|discriminate]. injection Hc as <-. cbn. split; [discriminate|].
      intros [H _]. inversion Hnd; contradiction.
    + rewrite (In_ i c Hc). split; intros [A B]; (split; [|exact B]).
      * eapply Permutation_in in A; [|exact Hpm]. destruct A as [A|A]; [congruence|exact A].
      * eapply Permutation_in; [symmetry; exact Hpm|right; exact A].
Qed.

Lemma fmm_step_ok st log :
  SInv (fs_g st) (fs_h st) log ->
  (forall m h1 j, hpop HO (key (fs_g st)) (fs_h st) = Some (m, h1) -> adjacent dims m j ->
     free (fs_g st) j -> In j init -> In j log) ->
  (helems HO (fs_h st) = [] /\ fmm_step HO cfg st = Ok None) \/
  exists m h1 st', hpop HO (key (fs_g st)) (fs_h st) = Some (m, h1) /\
    fmm_step HO cfg st = Ok (Some (m, st')) /\ SInv (fs_g st') (fs_h st') (m :: log).
Proof.
  intros HI Hside. unfold fmm_step.
  destruct (hpop HO (key (fs_g st)) (fs_h st)) as [[m h1]|] eqn:Hpop.
  - right. exists m, h1. pose proof HI as [Ig Iw Ind Ir Is If In_].
    destruct (hl_pop HO HL _ _ _ _ Iw Hpop) as [_ Hpm].
    assert (Hm : 0 <= m < box_size dims).
    { apply Ir, in_or_app. left. eapply Permutation_in; [symmetry; exact Hpm|left; reflexivity]. }
    pose proof Ig as [Hsh _]. rewrite Hsh, getNeighbors_eq by assumption. cbn [bind].
    destruct (getCell_in dims (fs_g st) m Ig Hm) as [c Hc].
    destruct (updCell_in (fs_g st) m c (fun c => with_state c FROZEN) Hc) as [g1 Hg1].
    change (updCell (fs_g st) m (fun c => with_state c FROZEN)) with (setState (fs_g st) m FROZEN) in Hg1.
    rewrite Hg1. cbn [bind]. pose proof (SInv_pop _ _ _ _ _ _ HI Hpop Hg1) as HI1.
    destruct (foldM_inv (fun s => SInv (fs_g s) (fs_h s) (m :: log) /\ frame (fun _ => True) (fs_g st) (fs_g s))
                (fmm_neighbor HO cfg) (nbrs dims m) (mkFst g1 h1)) as [st' [Hf [HI' _]]].
    + split; [exact HI1|]. eapply setState_frame; exact Hg1.
    + intros s j Hin [HIs HFs]. apply nbrs_spec in Hin; [|exact Hp|exact Hm].
      pose proof (adjacent_range _ _ _ Hin) as [_ Hj].
      destruct (fmm_neighbor_ok s j (m :: log) HIs Hj) as [s' [Hs' HIs']].
      * intros Hfree Hsrc. right. eapply Hside; eauto. eapply frame_free_inv; eauto.
      * exists s'. split; [exact Hs'|]. split; [exact HIs'|]. eapply frame_trans; [exact HFs|].
        eapply fmm_neighbor_frame; eauto.
    + rewrite Hf. cbn [bind]. eauto.
  - left. split; [|reflexivity]. apply (hl_pop_none HO HL) in Hpop; [exact Hpop|apply HI].
Qed.

(** the initial points *)
Lemma fmm_init_ok g :
  grid_ok dims g -> NoDup init -> (forall i, In i init -> 0 <= i < box_size dims) ->
  (forall i c, getCell g i = Ok c -> c_state c = OPEN) ->
  exists st, foldM (fmm_init1 HO cfg) init (mkFst g (hempty HO)) = Ok st /\
    SInv (fs_g st) (fs_h st) [] /\ Permutation (helems HO (fs_h st)) init.
Proof.
  intros Hg Hnd Hr Ho.
  destruct (foldM_seq (fun pre s => grid_ok dims (fs_g s) /\ hwf HL (fs_h s) /\
              Permutation (helems HO (fs_h s)) pre /\
              (forall i c, getCell (fs_g s) i = Ok c -> c_state c = OPEN))
            (fmm_init1 HO cfg) init (mkFst g (hempty HO))) as [st [H1 [H2 [H3 [H4 H5]]]]].
  - cbn. destruct (hl_empty HO HL) as [E1 E2]. rewrite E2. auto.
  - intros pre i post s E [A [B [C D]]].
    assert (Hi : 0 <= i < box_size dims) by (apply Hr; rewrite E; apply in_or_app; right; left; reflexivity).
    unfold fmm_init1. destruct (getCell_in dims (fs_g s) i A Hi) as [c Hc].
    destruct (updCell_in (fs_g s) i c (fun c => with_val c n0) Hc) as [g1 Hg1].
    change (updCell (fs_g s) i (fun c => with_val c n0)) with (setArrivalTime (fs_g s) i n0) in Hg1.
    rewrite Hg1. cbn [bind]. pose proof (updCell_grid_ok _ _ _ _ _ Hg1 A) as A1.
    destruct (fmm_heur_spec g1 i A1 Hi) as [g2 [Hg2 [A2 Hc2]]]. rewrite Hg2. cbn [bind].
    eexists. split; [reflexivity|]. cbn [fs_g fs_h]. split; [exact A2|].
    assert (Hni : ~ In i (helems HO (fs_h s))).
    { intros K. apply (Permutation_in _ C) in K. rewrite E in Hnd. apply NoDup_remove_2 in Hnd. apply Hnd, in_or_app. auto. }
    destruct (hl_push HO HL (key g2) i (fs_h s) B Hni) as [B2 Hpm]. split; [exact B2|]. split.
    + rewrite Hpm, C. apply Permutation_cons_append.
    + intros k c' Hc'. destruct (Hc2 k c' Hc') as [c3 [K1 [-> _]]].
      rewrite (updCell_get _ _ _ _ k Hg1) in K1. destruct (i =? k).
      * destruct (getCell (fs_g s) k) as [c4|] eqn:E4; [|discriminate]. injection K1 as <-. exact (D k c4 E4).
      * exact (D k c3 K1).
  - exists st. split; [exact H1|]. split; [|exact H4].
    constructor; auto.
    + rewrite app_nil_r. eapply Permutation_NoDup; [symmetry; exact H4|exact Hnd].
    + intros i Hi. rewrite app_nil_r in Hi. apply Hr. eapply Permutation_in; eauto.
    + intros i Hi. rewrite app_nil_r. eapply Permutation_in; [symmetry; exact H4|exact Hi].
    + intros i c Hc. rewrite (H5 i c Hc). split; [discriminate|intros []].
    + intros i c Hc. rewrite (H5 i c Hc). split; [discriminate|]. intros [A B]. exfalso; apply B.
      eapply Permutation_in; eauto.
Qed.

(** bound on the log *)
Lemma log_bound g h log : SInv g h log -> (length (helems HO h) + length log <= Z.to_nat (box_size dims))%nat.
Proof.
  intros [Ig Iw Ind Ir _ _ _]. rewrite <- app_length. rewrite <- (length_zseq (Z.to_nat (box_size dims))).
  apply NoDup_incl_length; [exact Ind|]. intros i Hi. apply in_zseq. specialize (Ir i Hi). lia.
Qed.

(** sequences of main-loop iterations *)
Inductive steps : fmm_state HO -> list Z -> fmm_state HO -> list Z -> Prop :=
| steps_refl st log : steps st log st log
| steps_next st log st1 log1 m st2 : steps st log st1 log1 ->
    fmm_step HO cfg st1 = Ok (Some (m, st2)) -> steps st log st2 (m :: log1).

(** one initial point, or initial points that are all obstacles: no order
    property of the heap is needed *)
Definition quiet (g : grid N) (log : list Z) (h : heap HO) : Prop :=
  (forall i, In i init -> ~ free g i) \/
  exists s, init = [s] /\ (In s log \/ log = [] /\ Permutation (helems HO h) [s]).

Lemma quiet_step st log :
  SInv (fs_g st) (fs_h st) log -> quiet (fs_g st) log (fs_h st) ->
  (helems HO (fs_h st) = [] /\ fmm_step HO cfg st = Ok None) \/
  exists m st', fmm_step HO cfg st = Ok (Some (m, st')) /\ SInv (fs_g st') (fs_h st') (m :: log) /\
                quiet (fs_g st') (m :: log) (fs_h st').
Proof.
  intros HI Hq.
  destruct (fmm_step_ok st log HI) as [H|[m [h1 [st' [Hpop [Hs HI']]]]]].
  - intros m h1 j Hpop Hadj Hfree Hj. destruct Hq as [Hq|[s [Hinit Hq]]]; [destruct (Hq j Hj Hfree)|].
    rewrite Hinit in Hj. destruct Hj as [<-|[]]. destruct Hq as [Hq|[-> Hq]]; [exact Hq|exfalso].
    destruct (hl_pop HO HL _ _ _ _ (si_wf _ _ _ HI) Hpop) as [_ Hpm].
    assert (m = s).
    { assert (Hin : In m [s]) by (eapply Permutation_in; [exact Hq|]; eapply Permutation_in; [symmetry; exact Hpm|left; reflexivity]).
      destruct Hin as [<-|[]]. reflexivity. }
    subst m. eapply adjacent_irrefl; eauto.
  - left; exact H.
  - right. exists m, st'. split; [exact Hs|]. split; [exact HI'|].
    destruct Hq as [Hq|[s [Hinit Hq]]].
    + left. intros i Hi Hfree. apply (Hq i Hi).
      pose proof (fmm_step_frame (fun _ => True) HO _ _ _ Hs) as HF. cbn in HF. eapply frame_free_inv; eauto.
    + right. exists s. split; [exact Hinit|]. left. destruct Hq as [Hq|[-> Hq]]; [right; exact Hq|].
      destruct (hl_pop HO HL _ _ _ _ (si_wf _ _ _ HI) Hpop) as [_ Hpm].
      assert (Hin : In m [s]) by (eapply Permutation_in; [exact Hq|]; eapply Permutation_in; [symmetry; exact Hpm|left; reflexivity]).
      destruct Hin as [<-|[]]. left; reflexivity.
Qed.

(** the main loop, any goal *)
Lemma quiet_loop goal :
  forall fuel st log, SInv (fs_g st) (fs_h st) log -> quiet (fs_g st) log (fs_h st) ->
  (Z.to_nat (box_size dims) < fuel + length log)%nat ->
  exists st' log', fmm_loop HO fuel cfg goal st log = Ok (st', log') /\ SInv (fs_g st') (fs_h st') log' /\
     (exists l, log' = l ++ log) /\ (helems HO (fs_h st') = [] \/ exists r, log' = goal :: r).
Proof.
  induction fuel as [|k IH]; intros st log HI Hq Hfuel.
  { pose proof (log_bound _ _ _ HI). lia. }
  cbn [fmm_loop]. destruct (quiet_step st log HI Hq) as [[He Hs]|[m [st' [Hs [HI' Hq']]]]]; rewrite Hs; cbn [bind].
  - exists st, log. split; [reflexivity|]. split; [exact HI|].
    split; [exists []; reflexivity|left; exact He].
  - destruct (Z.eqb_spec m goal) as [->|Hne].
    + exists st', (goal :: log). split; [reflexivity|]. split; [exact HI'|].
      split; [exists [goal]; reflexivity|right; eauto].
    + destruct (IH st' (m :: log) HI' Hq') as [st2 [log2 [A [B [[l C] D]]]]].
      { cbn [length]. lia. }
      exists st2, log2. split; [exact A|]. split; [exact B|]. split; [|exact D].
      exists (l ++ [m]). rewrite C, <- app_assoc. reflexivity.
Qed.

Lemma quiet_init g :
  grid_ok dims g -> NoDup init -> (forall i, In i init -> 0 <= i < box_size dims) ->
  (forall i c, getCell g i = Ok c -> c_state c = OPEN) ->
  (forall i, In i init -> ~ free g i) \/ (exists s, init = [s]) ->
  exists st, foldM (fmm_init1 HO cfg) init (mkFst g (hempty HO)) = Ok st /\
    SInv (fs_g st) (fs_h st) [] /\ quiet (fs_g st) [] (fs_h st).
Proof.
  intros Hg Hnd Hr Ho Hq. destruct (fmm_init_ok g Hg Hnd Hr Ho) as [st [A [B C]]].
  exists st. split; [exact A|]. split; [exact B|].
  destruct Hq as [Hq|[s Hs]].
  - left. intros i Hi Hfree. apply (Hq i Hi).
    assert (HF : frame (fun _ => True) g (fs_g st)).
    { refine (foldM_inv_partial (fun s => frame (fun _ => True) g (fs_g s)) _ _ _ _ _ _ A); [apply frame_refl|].
      intros s k s1 Hk HF E. unfold fmm_init1 in E. invb. cbn.
      eapply frame_trans; [|eapply fmm_heur_frame; eauto]. eapply setval_init; eauto. }
    eapply frame_free_inv; eauto.
  - right. exists s. split; [exact Hs|]. right. split; [reflexivity|]. rewrite <- Hs. exact C.
Qed.

Lemma quiet_steps st log st' log' :
  SInv (fs_g st) (fs_h st) log -> quiet (fs_g st) log (fs_h st) -> steps st log st' log' ->
  SInv (fs_g st') (fs_h st') log' /\ quiet (fs_g st') log' (fs_h st').
Proof.
  intros HI Hq H. induction H as [st log|st log st1 log1 m st2 H IH Hs]; [auto|].
  destruct (IH HI Hq) as [HI1 Hq1]. destruct (quiet_step _ _ HI1 Hq1) as [[_ E]|[m' [st'' [E [A B]]]]]; [congruence|].
  rewrite E in Hs. injection Hs as <- <-. auto.
Qed.

End Struct.

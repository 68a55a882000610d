(** UFMMStruct.v - structural invariant of UFMM (ufmm.hpp) on top of the untidy queue, for
    every arithmetic (C65). *)
From Coq Require Import Permutation.
From Verif Require Import Base BaseFacts Num NumLaws Grid GridFacts GridUpd GridMore Spec Obs Eikonal
  FMMModel FMMStruct UntidyModel UntidySpec Untidy Frame Evolve Lifecycle.
Open Scope Z_scope.

Section View.
Context {N : Num}.
Implicit Types g : grid N.

(** state, bucket and value of a cell *)
Definition cst g x : option fmstate := match getCell g x with Ok c => Some (c_state c) | _ => None end.
Definition cbk g x : option Z := match getCell g x with Ok c => Some (c_bucket c) | _ => None end.

Lemma cst_get g x c : getCell g x = Ok c -> cst g x = Some (c_state c).
Proof. unfold cst. intros ->. reflexivity. Qed.
Lemma cbk_get g x c : getCell g x = Ok c -> cbk g x = Some (c_bucket c).
Proof. unfold cbk. intros ->. reflexivity. Qed.

Lemma cst_setState g i s g' x : setState g i s = Ok g' -> cst g' x = if i =? x then Some s else cst g x.
Proof.
  intros H. unfold cst. rewrite (updCell_get _ _ _ _ x H). destruct (Z.eqb_spec i x) as [<-|]; [|reflexivity].
  apply updCell_ok in H. destruct H as [c [Hc _]]. rewrite Hc. reflexivity.
Qed.
Lemma cst_keep g i f g' x : (forall c, c_state (f c) = c_state c) -> updCell g i f = Ok g' -> cst g' x = cst g x.
Proof.
  intros Hf H. unfold cst. rewrite (updCell_get _ _ _ _ x H). destruct (Z.eqb_spec i x) as [<-|]; [|reflexivity].
  destruct (getCell g i); [rewrite Hf|]; reflexivity.
Qed.
Lemma cbk_setBucket g i b g' x : setBucket g i b = Ok g' -> cbk g' x = if i =? x then Some b else cbk g x.
Proof.
  intros H. unfold cbk. rewrite (updCell_get _ _ _ _ x H). destruct (Z.eqb_spec i x) as [<-|]; [|reflexivity].
  apply updCell_ok in H. destruct H as [c [Hc _]]. rewrite Hc. reflexivity.
Qed.
Lemma cbk_keep g i f g' x : (forall c, c_bucket (f c) = c_bucket c) -> updCell g i f = Ok g' -> cbk g' x = cbk g x.
Proof.
  intros Hf H. unfold cbk. rewrite (updCell_get _ _ _ _ x H). destruct (Z.eqb_spec i x) as [<-|]; [|reflexivity].
  destruct (getCell g i); [rewrite Hf|]; reflexivity.
Qed.
Lemma val_set g i t g' x : setArrivalTime g i t = Ok g' ->
  getArrivalTime g' x = if i =? x then Ok t else getArrivalTime g x.
Proof.
  intros H. unfold getArrivalTime. rewrite (updCell_get _ _ _ _ x H). destruct (Z.eqb_spec i x) as [<-|]; [|reflexivity].
  apply updCell_ok in H. destruct H as [c [Hc _]]. rewrite Hc. reflexivity.
Qed.
Lemma val_keep g i f g' x : (forall c, c_val (f c) = c_val c) -> updCell g i f = Ok g' -> getArrivalTime g' x = getArrivalTime g x.
Proof.
  intros Hf H. unfold getArrivalTime. rewrite (updCell_get _ _ _ _ x H). destruct (Z.eqb_spec i x) as [<-|]; [|reflexivity].
  destruct (getCell g i); cbn; [rewrite Hf|]; reflexivity.
Qed.

Lemma upd_exists g i f c : getCell g i = Ok c -> exists g', updCell g i f = Ok g'.
Proof. apply updCell_in. Qed.

(** *** one neighbour *)
Variant nb_case (s s' : uf_state (N := N)) (j : Z) : Prop :=
| nb_skip c : getCell (uf_g s) j = Ok c -> c_state c = FROZEN \/ isOccupied c = true -> s' = s -> nb_case s s' j
| nb_worse c t : getCell (uf_g s) j = Ok c -> isOccupied c = false -> c_state c = NARROW ->
    solveEikonal (uf_g s) j = Ok t -> isTimeBetterThan t (c_val c) = false -> s' = s -> nb_case s s' j
| nb_better c t g1 b : getCell (uf_g s) j = Ok c -> isOccupied c = false -> c_state c = NARROW ->
    solveEikonal (uf_g s) j = Ok t -> isTimeBetterThan t (c_val c) = true ->
    setArrivalTime (uf_g s) j t = Ok g1 -> uq_increase (uf_q s) j (c_bucket c) t = Ok (uf_q s', b) ->
    setBucket g1 j b = Ok (uf_g s') -> nb_case s s' j
| nb_new c t g1 g2 b : getCell (uf_g s) j = Ok c -> isOccupied c = false -> c_state c = OPEN ->
    solveEikonal (uf_g s) j = Ok t -> setState (uf_g s) j NARROW = Ok g1 -> setArrivalTime g1 j t = Ok g2 ->
    uq_push (uf_q s) j t = Ok (uf_q s', b) -> setBucket g2 j b = Ok (uf_g s') -> nb_case s s' j.

Lemma get_set_same g i f g' c : updCell g i f = Ok g' -> getCell g i = Ok c -> getCell g' i = Ok (f c).
Proof. intros H Hc. rewrite (updCell_get _ _ _ _ i H), Z.eqb_refl, Hc. reflexivity. Qed.

Lemma nb_cases s j s' : ufmm_neighbor s j = Ok s' -> nb_case s s' j.
Proof.
  intros H. unfold ufmm_neighbor in H. apply bind_ok in H. destruct H as [c [Hc H]].
  destruct (fmstate_eqb (c_state c) FROZEN) eqn:EF; cbn [orb] in H.
  { injection H as <-. apply eqb_state in EF. eapply nb_skip; eauto. }
  destruct (isOccupied c) eqn:EO. { injection H as <-. eapply nb_skip; eauto. }
  apply eqb_state_false in EF. apply bind_ok in H. destruct H as [t [Ht H]].
  destruct (fmstate_eqb (c_state c) NARROW) eqn:EN.
  - apply eqb_state in EN. destruct (isTimeBetterThan t (c_val c)) eqn:EB.
    + apply bind_ok in H. destruct H as [g1 [H1 H]]. unfold uf_increase in H. cbn [uf_g uf_q] in H.
      apply bind_ok in H. destruct H as [c1 [Hc1 H]]. apply bind_ok in H. destruct H as [[q b] [Hq H]].
      apply bind_ok in H. destruct H as [g2 [H2 H]]. injection H as <-.
      rewrite (get_set_same _ _ _ _ _ H1 Hc) in Hc1. injection Hc1 as <-. cbn [with_val c_bucket c_val] in Hq.
      eapply nb_better; eauto.
    + injection H as <-. eapply nb_worse; eauto.
  - apply eqb_state_false in EN. pose proof (state_cases _ EF EN) as EOp.
    apply bind_ok in H. destruct H as [g1 [H1 H]]. apply bind_ok in H. destruct H as [g2 [H2 H]].
    unfold uf_push in H. cbn [uf_g uf_q] in H. apply bind_ok in H. destruct H as [t' [Ht' H]].
    rewrite (val_set _ _ _ _ j H2), Z.eqb_refl in Ht'. injection Ht' as <-.
    apply bind_ok in H. destruct H as [[q b] [Hq H]]. apply bind_ok in H. destruct H as [g3 [H3 H]]. injection H as <-.
    eapply nb_new; eauto.
Qed.
End View.

Section Struct.
Context {N : Num}.
Variable dims : list Z.
Hypothesis Hd2 : dims2 dims.
Hypothesis Hlt : 2 * box_size dims <= 4294967296.
Variable init : list Z.
Variable g0 : grid N.
Hypothesis Hg0 : grid_ok dims g0.
Hypothesis Hsep : separated dims g0 init.
Hypothesis Hrng : forall i, In i init -> 0 <= i < box_size dims.

Let Hp : proper dims := dims2_proper' dims Hd2.
Notation reach := (reachable dims (fun k => In k init) (free g0)).

(** [log]: cells popped; [cur]: the cell being processed, still in the queue; [rem]: initial
    points not yet popped, at the back of the current bucket *)
Record MI (g : grid N) (q : uq (N := N)) (log rem cur : list Z) : Prop := {
  mi_ev : ev init g0 g;
  mi_ui : UI q;
  mi_sz : uq_size q < 4294967296;
  mi_nd : NoDup (bag q);
  mi_bag : forall x, In x (bag q) <-> cst g x = Some NARROW \/ In x (rem ++ cur);
  mi_tl : exists l, bucket q (uq_i0 q) = l ++ rem ++ cur;
  mi_bk : forall x, cst g x = Some NARROW -> exists b, cbk g x = Some b /\ 0 <= b < uq_size q /\ In x (bucket q b);
  mi_rem : forall x, In x rem -> In x init /\ cst g x = Some OPEN;
  mi_fr : forall x, cst g x = Some FROZEN <-> In x (cur ++ log);
  mi_log : NoDup (cur ++ log);
  mi_src : forall x, In x init -> In x rem \/ In x (cur ++ log);
  mi_nar : forall x, cst g x = Some NARROW -> free g0 x /\ ~ In x init /\ reach x;
  mi_first : rem <> [] -> forall x, In x (cur ++ log) -> In x init;
  mi_reach : forall x, In x (cur ++ log) -> reach x;
  mi_clos : forall y x, In y log -> adjacent dims y x -> free g0 x -> cst g x <> Some OPEN
}.

Lemma mi_grid g q log rem cur : MI g q log rem cur -> grid_ok dims g.
Proof. intros I. eapply frame_grid_ok; [apply ev_frame, (mi_ev _ _ _ _ _ I)|exact Hg0]. Qed.

Lemma ev_free_iff g x : ev init g0 g -> (free g x <-> free g0 x).
Proof. intros H. split; [apply (ev_free_inv init g0 g x H)|apply (ev_free init g0 g x H)]. Qed.

(** a neighbour of the cell in hand *)
Lemma MI_neighbor s j s' m log rem :
  MI (uf_g s) (uf_q s) log rem [m] -> adjacent dims m j -> ufmm_neighbor s j = Ok s' ->
  MI (uf_g s') (uf_q s') log rem [m] /\
  (free g0 j -> cst (uf_g s') j <> Some OPEN) /\ (forall x, cst (uf_g s) x <> Some OPEN -> cst (uf_g s') x <> Some OPEN) /\
  uq_i0 (uf_q s') = uq_i0 (uf_q s) /\ uq_t0 (uf_q s') = uq_t0 (uf_q s) /\
  (forall x, x <> j -> getArrivalTime (uf_g s') x = getArrivalTime (uf_g s) x).
Proof.
  intros I Ha H. pose proof I as [Iev Iui Isz Ind Ibag Itl Ibk Irem Ifr Ilog Isrc Inar Ifst Irea Iclo].
  pose proof (mi_grid _ _ _ _ _ I) as Hg. pose proof (ufmm_neighbor_ev init _ _ _ H) as Hev.
  pose proof (ev_trans init _ _ _ Iev Hev) as Iev'.
  destruct (nb_cases _ _ _ H) as [c Hc Hcs ->|c t Hc Ho Hst Hs Hb ->|c t g1 b Hc Ho Hst Hs Hb H1 H2 H3|c t g1 g2 b Hc Ho Hst Hs H1 H2 H3 H4].
  - split; [exact I|]. split; [|auto 10]. intros Hf. rewrite (cst_get _ _ _ Hc). destruct Hcs as [->|Hocc]; [discriminate|].
    apply (ev_free_iff _ _ Iev) in Hf. destruct Hf as [c' [Hc' Ho']]. congruence.
  - split; [exact I|]. split; [|auto 10]. intros _. rewrite (cst_get _ _ _ Hc), Hst. discriminate.
  - (* better: increase *)
    assert (En : cst (uf_g s) j = Some NARROW) by (rewrite (cst_get _ _ _ Hc), Hst; reflexivity).
    destruct (Ibk j En) as [b0 [Eb [Hb0 Hin]]]. rewrite (cbk_get _ _ _ Hc) in Eb. injection Eb as <-.
    destruct (incr_spec _ _ _ _ _ _ Iui Isz Ind Hb0 Hin H2) as [U' [P [Hbr [Es [Enb [Hin' [Ei0 [Et0 [Hoth Hcase]]]]]]]]].
    assert (Ecst : forall x, cst (uf_g s') x = cst (uf_g s) x).
    { intros x. rewrite (cst_keep _ _ (fun c => with_bucket c b) _ x (fun _ => eq_refl) H3). apply (cst_keep _ _ (fun c => with_val c t) _ x (fun _ => eq_refl) H1). }
    assert (Ecbk : forall x, cbk (uf_g s') x = if j =? x then Some b else cbk (uf_g s) x).
    { intros x. rewrite (cbk_setBucket _ _ _ _ x H3). destruct (j =? x); [reflexivity|]. apply (cbk_keep _ _ (fun c => with_val c t) _ x (fun _ => eq_refl) H1). }
    split; [|split; [intros _; rewrite Ecst, En; discriminate|split; [intros x; rewrite Ecst; auto|split; [exact Ei0|split; [exact Et0|]]]]].
    + constructor; auto; try (intros x; rewrite ?Ecst; auto; fail).
      * rewrite Es. exact Isz.
      * eapply Permutation_NoDup; [symmetry; exact P|exact Ind].
      * intros x. rewrite Ecst, <- Ibag. split; intros K; (eapply Permutation_in; [|exact K]); [exact P|symmetry; exact P].
      * destruct Itl as [l El]. rewrite Ei0. destruct Hcase as [[_ ->]|[B1 [B2 [Hne B3]]]]; [eauto|].
        assert (Hi0 : 0 <= uq_i0 (uf_q s)) by (destruct Iui as [_ _ K _]; lia).
        destruct (Z.eq_dec (uq_i0 (uf_q s)) b) as [E|E]; [rewrite E in *; rewrite B1, El; exists (j :: l); reflexivity|].
        destruct (Z.eq_dec (uq_i0 (uf_q s)) (c_bucket c)) as [E2|E2]; [|rewrite B3 by lia; eauto].
        rewrite E2 in *. rewrite B2, El, filter_app. exists (filter (fun x => negb (x =? j)) l). f_equal.
        apply filter_notin. intros K. apply in_app_or in K. destruct K as [K|[<-|[]]].
        -- destruct (Irem j K) as [_ K2]. congruence.
        -- assert (cst (uf_g s) m = Some FROZEN) by (apply Ifr; left; reflexivity). congruence.
      * intros x. rewrite Ecst. intros Hx. rewrite Ecbk. destruct (Z.eqb_spec j x) as [<-|Hne].
        -- exists b. auto.
        -- destruct (Ibk x Hx) as [bx [K1 [K2 K3]]]. exists bx. split; [exact K1|]. split; [lia|]. apply Hoth; [lia|congruence|exact K3].
      * intros y x. rewrite Ecst. apply Iclo.
    + intros x Hx. rewrite (val_keep _ _ (fun c => with_bucket c b) _ x (fun _ => eq_refl) H3), (val_set _ _ _ _ x H1). destruct (Z.eqb_spec j x); [congruence|reflexivity].
  - (* new: push *)
    assert (Eo : cst (uf_g s) j = Some OPEN) by (rewrite (cst_get _ _ _ Hc), Hst; reflexivity).
    assert (Hfree : free g0 j) by (apply (ev_free_iff _ _ Iev); exists c; auto).
    assert (Hnsrc : ~ In j init).
    { intros K. destruct (Isrc j K) as [K1|K1].
      - assert (Hm : In m init) by (apply Ifst; [intros E; rewrite E in K1; destruct K1|left; reflexivity]). exact (Hsep m j Hm K Ha Hfree).
      - apply Ifr in K1. congruence. }
    destruct (push_spec _ _ _ _ _ Iui H3) as [U' [P [Hbr [Es [B1 [B2 [Enb Hkeep]]]]]]].
    assert (Hmb : In m (bag (uf_q s))) by (apply Ibag; right; apply in_or_app; right; left; reflexivity).
    assert (Hnb : uq_nb (uf_q s) <> 0) by (rewrite (ui_nb _ Iui); destruct (bag (uf_q s)); [destruct Hmb|cbn; lia]).
    destruct (Hkeep Hnb) as [Ei0 Et0].
    assert (Ecst : forall x, cst (uf_g s') x = if j =? x then Some NARROW else cst (uf_g s) x).
    { intros x. rewrite (cst_keep _ _ (fun c => with_bucket c b) _ x (fun _ => eq_refl) H4), (cst_keep _ _ (fun c => with_val c t) _ x (fun _ => eq_refl) H2). apply cst_setState, H1. }
    assert (Ecbk : forall x, cbk (uf_g s') x = if j =? x then Some b else cbk (uf_g s) x).
    { intros x. rewrite (cbk_setBucket _ _ _ _ x H4). destruct (j =? x); [reflexivity|].
      rewrite (cbk_keep _ _ (fun c => with_val c t) _ x (fun _ => eq_refl) H2). apply (cbk_keep _ _ (fun c => with_state c NARROW) _ x (fun _ => eq_refl) H1). }
    assert (Hnbag : ~ In j (bag (uf_q s))).
    { intros K. apply Ibag in K. destruct K as [K|K]; [congruence|]. apply in_app_or in K. destruct K as [K|[<-|[]]]; [apply Hnsrc, (Irem j K)|].
      assert (cst (uf_g s) m = Some FROZEN) by (apply Ifr; left; reflexivity). congruence. }
    split; [|split; [intros _; rewrite Ecst, Z.eqb_refl; discriminate|split; [intros x; rewrite Ecst; destruct (j =? x); [discriminate|auto]|split; [exact Ei0|split; [exact Et0|]]]]].
    + constructor; auto.
      * rewrite Es. exact Isz.
      * eapply Permutation_NoDup; [symmetry; exact P|]. constructor; assumption.
      * intros x. rewrite Ecst. split.
        -- intros K. eapply Permutation_in in K; [|exact P]. destruct K as [<-|K]; [left; rewrite Z.eqb_refl; reflexivity|].
           apply Ibag in K. destruct (j =? x); [left; reflexivity|exact K].
        -- intros K. apply (Permutation_in _ (Permutation_sym P)). destruct (Z.eqb_spec j x) as [E|E]; [left; exact E|right; apply Ibag, K].
      * destruct Itl as [l El]. rewrite Ei0. destruct (Z.eq_dec (uq_i0 (uf_q s)) b) as [E|E].
        -- rewrite E in *. rewrite B1, El. exists (j :: l). reflexivity.
        -- rewrite B2; [eauto|destruct Iui as [_ _ K _]; lia|exact E].
      * intros x. rewrite Ecst, Ecbk. destruct (Z.eqb_spec j x) as [<-|Hne].
        -- intros _. exists b. split; [reflexivity|]. split; [lia|]. rewrite B1. left; reflexivity.
        -- intros K. destruct (Ibk x K) as [bx [K1 [K2 K3]]]. exists bx. split; [exact K1|]. split; [lia|].
           destruct (Z.eq_dec bx b) as [->|E]; [rewrite B1; right; exact K3|rewrite B2 by lia; exact K3].
      * intros x K. destruct (Irem x K) as [K1 K2]. split; [exact K1|]. rewrite Ecst. destruct (Z.eqb_spec j x) as [<-|]; [contradiction|exact K2].
      * intros x. rewrite Ecst, <- Ifr. destruct (Z.eqb_spec j x) as [<-|]; [|reflexivity]. rewrite Eo. split; discriminate.
      * intros x. rewrite Ecst. destruct (Z.eqb_spec j x) as [<-|]; [|apply Inar]. intros _. split; [exact Hfree|]. split; [exact Hnsrc|].
        eapply reach_step; [apply Irea; left; reflexivity|exact Ha|exact Hfree].
      * intros y x K1 K2 K3. rewrite Ecst. destruct (j =? x); [discriminate|]. eapply Iclo; eauto.
    + intros x Hx. rewrite (val_keep _ _ (fun c => with_bucket c b) _ x (fun _ => eq_refl) H4), (val_set _ _ _ _ x H2). destruct (Z.eqb_spec j x); [congruence|].
      apply (val_keep _ _ (fun c => with_state c NARROW) _ x (fun _ => eq_refl) H1).
Qed.

Lemma shift_here (q : uq (N := N)) fuel : UI q -> bucket q (uq_i0 q) <> [] -> uq_shift fuel q = Ok q.
Proof.
  intros U Hne. pose proof U as [A B C D]. destruct (vget_in_range (uq_tab q) (uq_i0 q) ltac:(lia)) as [b Ev].
  pose proof Ev as Ev'. apply vget_ok in Ev'. destruct Ev' as [Hb0 Hb]. rewrite (bucket_nth _ _ _ U Hb0 Hb) in Hne.
  destruct fuel; cbn [uq_shift]; rewrite Ev; cbn [bind]; destruct b; congruence.
Qed.

Lemma top_here (q : uq (N := N)) l x : UI q -> bucket q (uq_i0 q) = l ++ [x] -> uq_top q = Ok (q, x).
Proof.
  intros U E. assert (Hne : bucket q (uq_i0 q) <> []) by (rewrite E; destruct l; discriminate).
  unfold uq_top. rewrite (shift_here q _ U Hne). cbn [bind]. pose proof U as [A B C D].
  destruct (vget_in_range (uq_tab q) (uq_i0 q) ltac:(lia)) as [b Ev]. pose proof Ev as Ev'. apply vget_ok in Ev'. destruct Ev' as [Hb0 Hb].
  rewrite Ev. cbn [bind]. rewrite (bucket_nth _ _ _ U Hb0 Hb) in E. subst b. rewrite rev_app_distr. reflexivity.
Qed.

Lemma bag_bucket (q : uq (N := N)) x i : UI q -> 0 <= i < uq_size q -> In x (bucket q i) -> In x (bag q).
Proof.
  intros [A B C D] Hi K. unfold bag. apply in_concat. exists (bucket q i). split; [|exact K]. unfold bucket. apply nth_In. lia.
Qed.

(** taking the next cell *)
Lemma MI_top g q log rem q1 m g1 : MI g q log rem [] -> uq_top q = Ok (q1, m) -> setState g m FROZEN = Ok g1 ->
  exists rem', MI g1 q1 log rem' [m] /\ 0 <= m < box_size dims /\ cst g m <> Some FROZEN /\ ~ In m log /\
    (rem <> [] -> q1 = q /\ In m rem) /\ (rem = [] -> rem' = [] /\ cst g m = Some NARROW).
Proof.
  intros I Ht Hs. pose proof I as [Iev Iui Isz Ind Ibag Itl Ibk Irem Ifr Ilog Isrc Inar Ifst Irea Iclo].
  pose proof (mi_grid _ _ _ _ _ I) as Hg. destruct (top_spec _ _ _ Iui Ht) as [U1 [Et [Es [En [r Hr]]]]].
  rewrite app_nil_r in *. cbn [app] in *.
  assert (Hmb : In m (bag q)).
  { unfold bag. rewrite <- Et. fold (bag q1). eapply (bag_bucket q1 m (uq_i0 q1) U1); [apply U1|].
    rewrite Hr. apply in_or_app; right; left; reflexivity. }
  assert (Hm : 0 <= m < box_size dims).
  { apply updCell_ok in Hs. destruct Hs as [c [Hc _]]. apply getCell_range in Hc. destruct Hg as [_ <-]. exact Hc. }
  assert (Hmnf : cst g m <> Some FROZEN).
  { apply Ibag in Hmb. destruct Hmb as [K|K]; [congruence|]. destruct (Irem m K); congruence. }
  assert (Hml : ~ In m log) by (intros K; apply Hmnf, Ifr, K).
  assert (Ecst : forall x, cst g1 x = if m =? x then Some FROZEN else cst g x) by (intros x; apply cst_setState, Hs).
  assert (Ecbk : forall x, cbk g1 x = cbk g x) by (intros x; apply (cbk_keep _ _ (fun c => with_state c FROZEN) _ x (fun _ => eq_refl) Hs)).
  assert (Ebag : bag q1 = bag q) by (unfold bag; rewrite Et; reflexivity).
  assert (Ebk : forall i, bucket q1 i = bucket q i) by (intros i; unfold bucket; rewrite Et; reflexivity).
  assert (Hcase : exists rem', (rem = [] /\ rem' = [] /\ cst g m = Some NARROW \/ rem = rem' ++ [m] /\ q1 = q)).
  { destruct Itl as [l El]. destruct rem as [|a rem0] eqn:Er.
    - exists []. left. apply Ibag in Hmb. destruct Hmb as [K|[]]. auto.
    - destruct (@exists_last _ (a :: rem0) ltac:(discriminate)) as [r' [z Ez]]. exists r'. right.
      rewrite Ez, app_assoc in El. rewrite (top_here q _ z Iui El) in Ht. injection Ht as <- <-. auto. }
  destruct Hcase as [rem' Hcase]. exists rem'.
  split; [|split; [exact Hm|split; [exact Hmnf|split; [exact Hml|split]]]].
  2:{ intros Hne. destruct Hcase as [[K _]|[K1 K2]]; [contradiction|]. split; [exact K2|]. rewrite K1. apply in_or_app; right; left; reflexivity. }
  2:{ intros E. destruct Hcase as [[_ K]|[K1 _]]; [exact K|]. rewrite E in K1. destruct rem'; discriminate. }
  assert (Hremm : In m rem -> In m init) by (intros K; apply (Irem m K)).
  assert (Hndr : rem = rem' ++ [m] -> ~ In m rem').
  { intros E K. destruct Itl as [l El]. rewrite E in El.
    assert (Hn : NoDup (bucket q (uq_i0 q))).
    { eapply (NoDup_concat_nth (uq_tab q) (Z.to_nat (uq_i0 q))); [exact Ind|]. unfold bucket. apply nth_error_nth'. destruct Iui as [A B C D]. lia. }
    rewrite El in Hn. apply NoDup_app_r in Hn. apply NoDup_remove_2 in Hn. apply Hn. rewrite app_nil_r. exact K. }
  constructor; auto.
  - eapply Evolve.setst; eauto.
  - rewrite Es. exact Isz.
  - rewrite Ebag. exact Ind.
  - intros x. rewrite Ebag, Ibag, Ecst. destruct (Z.eqb_spec m x) as [<-|Hne].
    + split; [intros _; right; apply in_or_app; right; left; reflexivity|]. intros _. apply Ibag. exact Hmb.
    + destruct Hcase as [[-> [-> _]]|[-> _]]; [cbn; intuition congruence|]. rewrite !in_app_iff. cbn. intuition congruence.
  - destruct Hcase as [[-> [-> _]]|[E ->]]; [cbn; eauto|]. rewrite <- E. exact Itl.
  - intros x. rewrite Ecst, Ecbk. destruct (m =? x); [discriminate|]. intros K. destruct (Ibk x K) as [b K']. exists b. rewrite Es, Ebk. exact K'.
  - intros x K. destruct Hcase as [[_ [-> _]]|[E _]]; [destruct K|]. destruct (Irem x) as [K1 K2]; [rewrite E; apply in_or_app; left; exact K|].
    split; [exact K1|]. rewrite Ecst. destruct (Z.eqb_spec m x) as [<-|]; [|exact K2]. exfalso. exact (Hndr E K).
  - intros x. rewrite Ecst. cbn [app]. destruct (Z.eqb_spec m x) as [<-|Hne]; [split; [left; reflexivity|reflexivity]|].
    rewrite Ifr. cbn. intuition congruence.
  - cbn. constructor; assumption.
  - intros x K. cbn. destruct (Isrc x K) as [K1|K1]; [|auto]. destruct Hcase as [[E _]|[E _]]; rewrite E in K1; [destruct K1|].
    apply in_app_or in K1. destruct K1 as [K1|[<-|[]]]; auto.
  - intros x. rewrite Ecst. destruct (m =? x); [discriminate|]. apply Inar.
  - intros Hne x K. destruct Hcase as [[_ [-> _]]|[E _]]; [congruence|]. cbn in K. destruct K as [<-|K].
    + apply Hremm. rewrite E. apply in_or_app; right; left; reflexivity.
    + apply Ifst; [rewrite E; destruct rem'; discriminate|exact K].
  - intros x K. cbn in K. destruct K as [<-|K]; [|auto]. apply Ibag in Hmb. destruct Hmb as [K|K]; [apply (Inar m K)|]. apply reach_src, (Irem m K).
  - intros y x K1 K2 K3. rewrite Ecst. destruct (m =? x); [discriminate|]. eapply Iclo; eauto.
Qed.

(** dropping it from the queue *)
Lemma MI_pop g q log rem m q' : MI g q log rem [m] -> (forall x, adjacent dims m x -> free g0 x -> cst g x <> Some OPEN) ->
  uq_pop q = Ok q' -> MI g q' (m :: log) rem [] /\ uq_i0 q' = uq_i0 q /\ uq_t0 q' = uq_t0 q /\ uq_size q' = uq_size q.
Proof.
  intros I Hcl Hq. pose proof I as [Iev Iui Isz Ind Ibag Itl Ibk Irem Ifr Ilog Isrc Inar Ifst Irea Iclo].
  destruct Itl as [l El]. rewrite app_assoc in El.
  assert (Hmb : In m (bag q)) by (apply Ibag; right; apply in_or_app; right; left; reflexivity).
  assert (Hnb : uq_nb q <> 0) by (rewrite (ui_nb _ Iui); destruct (bag q); [destruct Hmb|cbn; lia]).
  destruct (pop_spec _ _ _ _ Iui Hnb (top_here q _ m Iui El) Hq) as [U' [P [Es [En [Ei [Et [Bi Bo]]]]]]].
  split; [|auto]. rewrite Ei in Bi. rewrite El in Bi. apply app_inj_tail in Bi. destruct Bi as [Bi _].
  assert (Hn : NoDup (m :: bag q')) by (eapply Permutation_NoDup; [exact P|exact Ind]). inversion Hn as [|? ? Hnm Hn']; subst.
  assert (Efm : cst g m = Some FROZEN) by (apply Ifr; left; reflexivity).
  constructor; auto.
  - rewrite Es. exact Isz.
  - intros x. rewrite app_nil_r. destruct (Z.eqb_spec m x) as [<-|Hne].
    + split; [intros K; contradiction|]. intros [K|K]; [congruence|]. destruct (Irem m K); congruence.
    + assert (K0 : In x (bag q') <-> In x (bag q)).
      { split; intros K; [eapply Permutation_in; [symmetry; exact P|right; exact K]|]. eapply Permutation_in in K; [|exact P]. destruct K as [K|K]; [congruence|exact K]. }
      rewrite K0, Ibag, in_app_iff. cbn. intuition congruence.
  - exists l. rewrite Ei, <- Bi, app_nil_r. reflexivity.
  - intros x K. destruct (Ibk x K) as [b [K1 [K2 K3]]]. exists b. split; [exact K1|]. split; [lia|].
    destruct (Z.eq_dec b (uq_i0 q')) as [E|E]; [|rewrite Bo by lia; exact K3]. rewrite E, Ei in *. rewrite El in K3. rewrite <- Bi.
    apply in_app_or in K3. destruct K3 as [K3|[<-|[]]]; [exact K3|congruence].
  - intros y x [<-|K1] K2 K3; [apply Hcl; assumption|eapply Iclo; eauto].
Qed.

(** one iteration *)
Lemma MI_step s log rem m s' : MI (uf_g s) (uf_q s) log rem [] -> ufmm_step s = Ok (m, s') ->
  exists rem', MI (uf_g s') (uf_q s') (m :: log) rem' [] /\ 0 <= m < box_size dims /\ ~ In m log.
Proof.
  intros I H. unfold ufmm_step in H. apply bind_ok in H. destruct H as [[q1 m'] [Ht H]].
  apply bind_ok in H. destruct H as [g1 [Hs H]]. apply bind_ok in H. destruct H as [ns [Hns H]].
  apply bind_ok in H. destruct H as [s2 [Hf H]]. apply bind_ok in H. destruct H as [q3 [Hpq H]]. injection H as -> <-.
  destruct (MI_top _ _ _ _ _ _ _ I Ht Hs) as [rem' [I1 [Hm [_ [Hml _]]]]]. exists rem'.
  pose proof (mi_grid _ _ _ _ _ I1) as Hg1. rewrite (proj1 Hg1), getNeighbors_eq in Hns by (auto; lia). injection Hns as <-.
  assert (K : MI (uf_g s2) (uf_q s2) log rem' [m] /\ forall x, In x (nbrs dims m) -> free g0 x -> cst (uf_g s2) x <> Some OPEN).
  { assert (Hgo : forall l, (forall x, In x l -> adjacent dims m x) -> forall s0, MI (uf_g s0) (uf_q s0) log rem' [m] -> foldM ufmm_neighbor l s0 = Ok s2 ->
      MI (uf_g s2) (uf_q s2) log rem' [m] /\ (forall x, In x l -> free g0 x -> cst (uf_g s2) x <> Some OPEN) /\
      (forall x, cst (uf_g s0) x <> Some OPEN -> cst (uf_g s2) x <> Some OPEN)).
    { induction l as [|j l IH]; intros Hl s0 I0 Hf0; cbn [foldM] in Hf0.
      - injection Hf0 as <-. split; [exact I0|]. split; [intros x []|auto].
      - apply bind_ok in Hf0. destruct Hf0 as [sa [Ha Hf0]].
        destruct (MI_neighbor _ _ _ _ _ _ I0 (Hl j (or_introl eq_refl)) Ha) as [Ia [Ha1 [Ha2 _]]].
        destruct (IH (fun x K => Hl x (or_intror K)) sa Ia Hf0) as [Ib [Hb1 Hb2]].
        split; [exact Ib|]. split; [|intros x K; apply Hb2, Ha2, K]. intros x [<-|K] Hfx; [apply Hb2, Ha1, Hfx|auto]. }
    destruct (Hgo (nbrs dims m)) with (s0 := mkUf g1 q1) as [K1 [K2 _]]; auto. intros x K. apply nbrs_spec in K; auto. }
  destruct K as [I2 Hcl].
  destruct (MI_pop _ _ _ _ _ _ I2 ltac:(intros x K1 K2; apply Hcl; [apply nbrs_spec; auto|exact K2]) Hpq) as [I3 _]. auto.
Qed.

Lemma MI_loop goal fuel : forall s log rem s' log', MI (uf_g s) (uf_q s) log rem [] ->
  ufmm_loop fuel goal s log = Ok (s', log') ->
  exists rem', MI (uf_g s') (uf_q s') log' rem' [] /\ (bag (uf_q s') = [] \/ exists r, log' = goal :: r).
Proof.
  induction fuel as [|k IH]; intros s log rem s' log' I H; cbn [ufmm_loop] in H; unfold uq_empty in H;
    (destruct (Z.eqb_spec (uq_nb (uf_q s)) 0) as [E|E];
     [injection H as <- <-; exists rem; split; [exact I|]; left; rewrite (ui_nb _ (mi_ui _ _ _ _ _ I)) in E; destruct (bag (uf_q s)); [reflexivity|cbn in E; lia]|]).
  - discriminate.
  - apply bind_ok in H. destruct H as [[m s1] [Hs H]]. destruct (MI_step _ _ _ _ _ I Hs) as [rem1 [I1 _]].
    destruct (Z.eqb_spec m goal) as [->|]; [injection H as <- <-; exists rem1; split; [exact I1|right; eauto]|]. eapply IH; eauto.
Qed.

(** the initial points *)
Hypothesis Hopen : forall i c, getCell g0 i = Ok c -> c_state c = OPEN.
Hypothesis Hnd : NoDup init.

Lemma MI_init q s : UI q -> bag q = [] -> uq_size q < 4294967296 -> cast_floor_u32 ((n0 - n0) * nofZ (uq_size q) / uq_inc q)%num = Ok 0 ->
  foldM (fun s i => g1 <- setArrivalTime (uf_g s) i n0 ;; uf_push (mkUf g1 (uf_q s)) i) init (mkUf g0 q) = Ok s ->
  MI (uf_g s) (uf_q s) [] (rev init) [] /\ (init <> [] -> uq_t0 (uf_q s) = n0 /\ uq_i0 (uf_q s) = 0) /\
  (forall i, In i init -> getArrivalTime (uf_g s) i = Ok n0) /\ (forall i, ~ In i init -> getArrivalTime (uf_g s) i = getArrivalTime g0 i).
Proof.
  intros U Eb Hsz Hc H.
  set (P := fun (pre : list Z) (s : uf_state (N := N)) =>
    ev init g0 (uf_g s) /\ UI (uf_q s) /\ qsame q (uf_q s) /\ Permutation (bag (uf_q s)) pre /\
    (pre <> [] -> uq_t0 (uf_q s) = n0 /\ uq_i0 (uf_q s) = 0 /\ bucket (uf_q s) 0 = rev pre) /\
    (forall x, cst (uf_g s) x = cst g0 x) /\
    (forall i, In i pre -> getArrivalTime (uf_g s) i = Ok n0) /\ (forall i, ~ In i pre -> getArrivalTime (uf_g s) i = getArrivalTime g0 i)).
  assert (HP : P init s).
  { assert (Hgo : forall post pre s0, init = pre ++ post -> P pre s0 ->
      foldM (fun s i => g1 <- setArrivalTime (uf_g s) i n0 ;; uf_push (mkUf g1 (uf_q s)) i) post s0 = Ok s -> P init s).
    { induction post as [|i post IH]; intros pre s0 E HP0 H0; cbn [foldM] in H0.
      - injection H0 as <-. rewrite E, app_nil_r. exact HP0.
      - apply bind_ok in H0. destruct H0 as [s1 [H1 H0]]. apply (IH (pre ++ [i]) s1); [rewrite <- app_assoc; exact E| |exact H0].
        clear IH H0. destruct HP0 as [Pev [Pui [Pq [Pb [P0 [Pst [Pv1 Pv2]]]]]]].
        apply bind_ok in H1. destruct H1 as [g1 [Hg1 H1]]. unfold uf_push in H1. cbn [uf_g uf_q] in H1.
        apply bind_ok in H1. destruct H1 as [t [Htm H1]]. rewrite (val_set _ _ _ _ i Hg1), Z.eqb_refl in Htm. injection Htm as <-.
        apply bind_ok in H1. destruct H1 as [[q1 b] [Hq1 H1]]. apply bind_ok in H1. destruct H1 as [g2 [Hg2 H1]]. injection H1 as <-.
        assert (Hii : In i init) by (rewrite E; apply in_or_app; right; left; reflexivity).
        destruct (push_spec _ _ _ _ _ Pui Hq1) as [U' [P' [Hbr [Es [B1 [B2 [Enb Hk]]]]]]]. cbn [uf_g uf_q].
        pose proof (uq_push_same _ _ _ _ Hq1) as Sq. cbn [fst] in Sq.
        assert (Hb0 : b = 0 /\ uq_t0 q1 = n0 /\ uq_i0 q1 = 0 /\ bucket (uf_q s0) 0 = rev pre).
        { destruct pre as [|a pre0].
          - apply Permutation_sym, Permutation_nil in Pb. assert (En : uq_nb (uf_q s0) = 0) by (rewrite (ui_nb _ Pui), Pb; reflexivity).
            unfold uq_push, uq_empty in Hq1. rewrite En in Hq1. cbn [Z.eqb bind uq_tab uq_nb] in Hq1. apply bind_ok in Hq1. destruct Hq1 as [bb [Hbb Hq1]].
            injection Hq1 as <- <-. cbn [uq_t0 uq_i0]. do 3 (split; [reflexivity|]). cbn [rev].
            destruct (bucket (uf_q s0) 0) as [|x l] eqn:Ex; [reflexivity|]. exfalso.
            assert (K : In x (bag (uf_q s0))) by (apply (bag_bucket _ x 0 Pui); [destruct Pui; lia|rewrite Ex; left; reflexivity]). rewrite Pb in K. destruct K.
          - destruct (P0 ltac:(discriminate)) as [T0 [I0 B0]].
            assert (Hnb : uq_nb (uf_q s0) <> 0) by (rewrite (ui_nb _ Pui), (Permutation_length Pb); cbn; lia).
            destruct (Hk Hnb) as [K1 K2]. split; [|rewrite K2, K1; auto].
            unfold uq_push, uq_empty in Hq1. destruct (Z.eqb_spec (uq_nb (uf_q s0)) 0); [contradiction|]. apply bind_ok in Hq1. destruct Hq1 as [[q2 b2] [Hq2 Hq1]].
            apply bind_ok in Hq2. destruct Hq2 as [b3 [Hb3 Hq2]]. injection Hq2 as <- <-. apply bind_ok in Hq1. destruct Hq1 as [bb [_ Hq1]]. injection Hq1 as _ <-.
            unfold uq_bucket in Hb3. destruct Pq as [Q1 [Q2 [Q3 Q4]]]. rewrite T0, I0 in Hb3.
            replace (uq_size (uf_q s0)) with (uq_size q) in Hb3 by congruence. replace (uq_inc (uf_q s0)) with (uq_inc q) in Hb3 by congruence.
            rewrite Hc in Hb3. cbn [bind] in Hb3. destruct (Z.eqb_spec (uq_size q) 0); [discriminate|].
            destruct (Z.leb_spec (uq_size q) 0); [destruct U; lia|]. injection Hb3 as <-. reflexivity. }
        destruct Hb0 as [-> [T1 [I1 B0]]].
        unfold P. cbn [uf_g uf_q]. split; [eapply Evolve.setbk; [|exact Hg2]; eapply Evolve.setval_init; eauto|].
        split; [exact U'|]. split; [eapply qsame_trans; eauto|]. split; [rewrite P', Pb; apply Permutation_cons_append|].
        split; [intros _; split; [exact T1|split; [exact I1|rewrite B1, B0, rev_app_distr; reflexivity]]|].
        split.
        { intros x. rewrite (cst_keep _ _ (fun c => with_bucket c 0) _ x (fun _ => eq_refl) Hg2), (cst_keep _ _ (fun c => with_val c n0) _ x (fun _ => eq_refl) Hg1). apply Pst. }
        assert (Ev : forall x, getArrivalTime g2 x = if i =? x then Ok n0 else getArrivalTime (uf_g s0) x).
        { intros x. rewrite (val_keep _ _ (fun c => with_bucket c 0) _ x (fun _ => eq_refl) Hg2). apply val_set, Hg1. }
        split; intros x K; rewrite Ev; destruct (Z.eqb_spec i x) as [<-|Hne]; auto.
        + apply Pv1. apply in_app_or in K. destruct K as [K|[K|[]]]; [exact K|congruence].
        + exfalso. apply K, in_or_app. right; left; reflexivity.
        + apply Pv2. intros K'. apply K, in_or_app. left; exact K'. }
    apply (Hgo init [] (mkUf g0 q)); [reflexivity| |exact H]. unfold P. cbn [uf_g uf_q].
    split; [constructor|]. split; [exact U|]. split; [apply qsame_refl|]. split; [rewrite Eb; constructor|]. split; [congruence|]. split; [reflexivity|]. split; [intros i []|reflexivity]. }
  destruct HP as [Pev [Pui [Pq [Pb [P0 [Pst [Pv1 Pv2]]]]]]].
  assert (HN : forall x, cst (uf_g s) x <> Some NARROW /\ cst (uf_g s) x <> Some FROZEN).
  { intros x. rewrite Pst. unfold cst. destruct (getCell g0 x) as [c|] eqn:Ex; [rewrite (Hopen x c Ex)|]; split; discriminate. }
  split; [|split; [intros K; destruct (P0 K) as [A [B _]]; auto|auto]].
  constructor; auto; cbn [app].
  - destruct Pq as [_ [K _]]. lia.
  - eapply Permutation_NoDup; [symmetry; exact Pb|exact Hnd].
  - intros x. rewrite app_nil_r. split.
    + intros K. right. rewrite <- in_rev. eapply Permutation_in; eauto.
    + intros [K|K]; [exfalso; exact (proj1 (HN x) K)|]. rewrite <- in_rev in K. eapply Permutation_in; [symmetry; exact Pb|exact K].
  - rewrite app_nil_r. destruct init as [|a r] eqn:Ei.
    + exists (bucket (uf_q s) (uq_i0 (uf_q s))). cbn. rewrite app_nil_r. reflexivity.
    + destruct (P0 ltac:(discriminate)) as [_ [-> ->]]. exists []. reflexivity.
  - intros x K. exfalso. exact (proj1 (HN x) K).
  - intros x K. rewrite <- in_rev in K. split; [exact K|]. rewrite Pst. destruct (getCell_in dims g0 x Hg0 (Hrng x K)) as [c Hcx].
    rewrite (cst_get _ _ _ Hcx), (Hopen x c Hcx). reflexivity.
  - intros x. split; [intros K; exfalso; apply (HN x), K|intros []].
  - constructor.
  - intros x K. left. rewrite <- in_rev. exact K.
  - intros x K. exfalso. exact (proj1 (HN x) K).
  - intros _ x [].
  - intros x [].
Qed.

(** the bookkeeping of a whole run *)
Theorem ufmm_struct goal fuel q s log : UI q -> bag q = [] -> uq_size q < 4294967296 ->
  cast_floor_u32 ((n0 - n0) * nofZ (uq_size q) / uq_inc q)%num = Ok 0 ->
  ufmm_run fuel goal init g0 q = Ok (s, log) ->
  exists rem, MI (uf_g s) (uf_q s) log rem [] /\ (bag (uf_q s) = [] \/ exists r, log = goal :: r).
Proof.
  intros U Eb Hsz Hc H. unfold ufmm_run in H. apply bind_ok in H. destruct H as [s0 [H1 H2]].
  destruct (MI_init q s0 U Eb Hsz Hc H1) as [I _]. eapply MI_loop; eauto.
Qed.

Lemma MI_done g q log rem : MI g q log rem [] -> bag q = [] ->
  forall x, In x log <-> reach x.
Proof.
  intros I E. pose proof I as [Iev Iui Isz Ind Ibag Itl Ibk Irem Ifr Ilog Isrc Inar Ifst Irea Iclo]. cbn [app] in *. rewrite app_nil_r in *.
  assert (Hno : forall y, cst g y <> Some NARROW /\ ~ In y rem).
  { intros y. split; intros K; (assert (K' : In y (bag q)) by (apply Ibag; auto); rewrite E in K'; destruct K'). }
  intros x. split; [apply Irea|]. intros K. induction K as [x K|y x K IH Ha Hf].
  - destruct (Isrc x K) as [K1|K1]; [exfalso; apply (Hno x), K1|exact K1].
  - pose proof (Iclo y x IH Ha Hf) as Hno'. apply Ifr. pose proof (adjacent_range _ _ _ Ha) as [_ Hx].
    destruct (getCell_in dims g x (mi_grid _ _ _ _ _ I) Hx) as [c Hc]. rewrite (cst_get _ _ _ Hc) in *.
    destruct (c_state c) eqn:Es; [congruence| |reflexivity]. exfalso. apply (proj1 (Hno x)). rewrite (cst_get _ _ _ Hc), Es. reflexivity.
Qed.

Lemma MI_bound g q log rem : MI g q log rem [] -> (length log <= Z.to_nat (box_size dims))%nat.
Proof.
  intros I. rewrite <- (length_zseq (Z.to_nat (box_size dims))). apply NoDup_incl_length; [apply (mi_log _ _ _ _ _ I)|].
  intros x K. apply in_zseq. assert (Hx : 0 <= x < box_size dims); [|lia].
  assert (E : cst g x = Some FROZEN) by (apply (mi_fr _ _ _ _ _ I), K). unfold cst in E. destruct (getCell g x) as [c|] eqn:Ec; [|discriminate].
  apply getCell_range in Ec. destruct (mi_grid _ _ _ _ _ I) as [_ <-]. exact Ec.
Qed.
End Struct.

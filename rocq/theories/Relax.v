(** Relax.v - relaxation (the label-correcting update used by FSM, LSM and
    DDQM) on abstract time maps: what every accepted update preserves, and when
    the fixed point is a solution. *)
From Coq Require Import Reals Lra Permutation.
From Verif Require Import Base BaseFacts NumXR NumLaws Grid GridFacts Spec EikR Solution XGrid FMMAbs.
Open Scope Z_scope.

Lemma US_below_eq c l x : (x <= c)%R -> upwind_sum l x = upwind_sum (below c l) x.
Proof.
  intros H. destruct (below_partition c l) as [r [P1 P2]]. rewrite (US_perm _ _ _ P1), US_app.
  rewrite (US_zero r); [ring|]. intros t Ht. specialize (P2 t Ht). lra.
Qed.

(** pointwise comparison of time maps: [T'] is at most [T] *)
Definition no_later (T T' : time_map) : Prop :=
  forall i t, T i = Some t -> exists t', T' i = Some t' /\ (t' <= t)%R.

Lemma no_later_refl T : no_later T T.
Proof. intros i t H. exists t. split; [exact H|lra]. Qed.
Lemma no_later_trans A B C : no_later A B -> no_later B C -> no_later A C.
Proof.
  intros H K i t Ht. destruct (H i t Ht) as [s [S1 S2]]. destruct (K i s S1) as [r [R1 R2]].
  exists r. split; [exact R1|lra].
Qed.

Section Relax.
Variables (dims : list Z) (init : list Z) (fr : Z -> Prop) (f : Z -> R).
Hypothesis Hp : proper dims.
Hypothesis Hf : forall i, fr i -> (0 < f i)%R.

Record Sup (T : time_map) : Prop := {
  s_src : forall i, In i init -> T i = Some 0%R;
  s_rng : forall i t, T i = Some t -> 0 <= i < box_size dims;
  s_reached : forall i t, T i = Some t -> ~ In i init ->
     (0 < t)%R /\ fr i /\ (f i * f i <= upwind_sum (somes (dmins dims T i)) t)%R
}.

Lemma sup_nonneg T i t : Sup T -> T i = Some t -> (0 <= t)%R.
Proof.
  intros S H. destruct (in_dec Z.eq_dec i init) as [Hi|Hi].
  - rewrite (s_src _ S i Hi) in H. injection H as <-. lra.
  - destruct (s_reached _ S i t H Hi) as [A _]. lra.
Qed.

(** the minima come from neighbours *)
Lemma in_somes_dmins T i a : 0 <= i < box_size dims -> In a (somes (dmins dims T i)) ->
  exists k, adjacent dims i k /\ T k = Some a.
Proof.
  intros Hi Ha. apply in_somes, in_dmins in Ha. destruct Ha as [d [Hd Ha]].
  pose proof (dmin_spec dims T i d Hp Hi Hd) as Hm. rewrite <- Ha in Hm. cbn in Hm.
  destruct Hm as [[k [K1 K2]] _]. exists k. split; [eapply adjacent_in_adjacent; eauto|exact K2].
Qed.

Lemma somes_dmins_empty T i j : 0 <= i < box_size dims -> somes (dmins dims T i) = [] ->
  adjacent dims i j -> T j = None.
Proof.
  intros Hi He Ha. destruct (adjacent_adjacent_in _ _ _ Ha) as [d [Hd Hj]].
  pose proof (dmin_spec dims T i d Hp Hi Hd) as Hm.
  destruct (dmin dims T i d) as [r|] eqn:E; [|exact (Hm j Hj)].
  exfalso. assert (Hin : In r (somes (dmins dims T i))); [|rewrite He in Hin; destruct Hin].
  apply in_somes, in_dmins. eauto.
Qed.

Lemma eik_some T i ff u : eik dims ff T i = Some u ->
  upw (T i) (dmins dims T i) <> [] /\ u = RF ff M (upw (T i) (dmins dims T i)).
Proof.
  unfold eik. destruct (upw (T i) (dmins dims T i)) as [|x r]; [discriminate|].
  intros H; injection H as <-. split; [discriminate|reflexivity].
Qed.

Lemma eik_none T i ff : eik dims ff T i = None -> upw (T i) (dmins dims T i) = [].
Proof. unfold eik. destruct (upw (T i) (dmins dims T i)); [reflexivity|discriminate]. Qed.

Lemma upw_incl own ms a : In a (upw own ms) -> In a (somes ms).
Proof. destruct own; cbn; [|auto]. intros H. apply in_below in H. tauto. Qed.

Lemma US_upw_le own ms u : (upwind_sum (upw own ms) u <= upwind_sum (somes ms) u)%R.
Proof. destruct own; cbn [upw]; [apply US_below_le|apply Rle_refl]. Qed.

(** initial points are never updated *)
Lemma src_no_update T i ff : Sup T -> In i init -> 0 <= i < box_size dims -> eik dims ff T i = None.
Proof.
  intros S Hi Hr. unfold eik. rewrite (s_src _ S i Hi).
  destruct (upw (Some 0%R) (dmins dims T i)) as [|x r] eqn:E; [reflexivity|exfalso].
  assert (Hx : In x (upw (Some 0%R) (dmins dims T i))) by (rewrite E; left; reflexivity).
  apply in_below in Hx. destruct Hx as [Hx Hlt]. destruct (in_somes_dmins T i x Hr Hx) as [k [_ Hk]].
  pose proof (sup_nonneg T k x S Hk). lra.
Qed.

Definition better (u : R) (o : option R) : Prop := match o with None => True | Some t => (u + M < t)%R end.

Lemma dmins_upd_self T j u : 0 <= j < box_size dims -> dmins dims (upd T j u) j = dmins dims T j.
Proof.
  intros Hj. apply dmins_ext; auto. intros k Hk. apply upd_other. intros ->. exact (adjacent_irrefl _ _ Hk).
Qed.

Lemma upd_no_later T j u : better u (T j) -> no_later T (upd T j u).
Proof.
  intros Hb i t Ht. destruct (Z.eq_dec i j) as [->|Hne].
  - exists u. rewrite upd_same. split; [reflexivity|]. rewrite Ht in Hb. cbn in Hb. pose proof Rmargin_pos. lra.
  - exists t. rewrite upd_other by exact Hne. split; [exact Ht|lra].
Qed.

Lemma sup_update T j u : Sup T -> fr j -> 0 <= j < box_size dims -> eik dims (f j) T j = Some u ->
  better u (T j) -> Sup (upd T j u) /\ ~ In j init /\ (0 < u)%R.
Proof.
  intros S Hfj Hj He Hb.
  assert (Hni : ~ In j init) by (intros Hi; rewrite (src_no_update T j (f j) S Hi Hj) in He; discriminate).
  destruct (eik_some _ _ _ _ He) as [Hne Hu].
  destruct (RF_bounds (f j) M _ (Hf j Hfj) Rmargin_pos Hne) as [R1 [_ [x [Hx Hxu]]]]. rewrite <- Hu in *.
  assert (Hu0 : (0 < u)%R).
  { apply upw_incl in Hx. destruct (in_somes_dmins T j x Hj Hx) as [k [_ Hk]].
    pose proof (sup_nonneg T k x S Hk). lra. }
  split; [|auto]. constructor.
  - intros i Hi. rewrite upd_other by (intros ->; contradiction). apply (s_src _ S i Hi).
  - intros i t H. destruct (Z.eq_dec i j) as [->|Hij]; [exact Hj|].
    rewrite upd_other in H by exact Hij. apply (s_rng _ S i t H).
  - intros i t H Hi. destruct (Z.eq_dec i j) as [->|Hij].
    + rewrite upd_same in H. injection H as <-. split; [exact Hu0|]. split; [exact Hfj|].
      rewrite dmins_upd_self by exact Hj. eapply Rle_trans; [exact R1|apply US_upw_le].
    + rewrite upd_other in H by exact Hij. destruct (s_reached _ S i t H Hi) as [A [B C]].
      split; [exact A|]. split; [exact B|]. eapply Rle_trans; [exact C|].
      apply US_le; [exact Hp|apply (s_rng _ S i t H)|]. intros k s _ Hk _. apply (upd_no_later T j u Hb k s Hk).
Qed.

(** locally a sub-solution *)
Definition settled (T : time_map) (i : Z) : Prop :=
  match T i with
  | None => forall j, adjacent dims i j -> T j = None
  | Some t => (upwind_sum (somes (dmins dims T i)) (t - 2 * M) < f i * f i)%R
  end.

Lemma settled_not_better T i : Sup T -> fr i -> 0 <= i < box_size dims -> ~ In i init ->
  (forall u, eik dims (f i) T i = Some u -> ~ better u (T i)) -> settled T i.
Proof.
  intros S Hfi Hi Hni Hnb. unfold settled. destruct (T i) as [t|] eqn:Et.
  - destruct (eik dims (f i) T i) as [u|] eqn:Ee.
    + specialize (Hnb u eq_refl). cbn in Hnb. destruct (eik_some _ _ _ _ Ee) as [Hne Hu]. rewrite Et in *.
      cbn [upw] in *. destruct (RF_bounds (f i) M _ (Hf i Hfi) Rmargin_pos Hne) as [_ [R2 _]]. rewrite <- Hu in R2.
      pose proof Rmargin_pos. rewrite (US_below_eq t) by lra. eapply Rle_lt_trans; [|exact R2]. apply US_mono. lra.
    + exfalso. apply eik_none in Ee. rewrite Et in Ee. cbn [upw] in Ee.
      destruct (s_reached _ S i t Et Hni) as [_ [_ C]]. rewrite (US_below_eq t) in C by lra. rewrite Ee in C.
      cbn in C. pose proof (Hf i Hfi). nra.
  - destruct (eik dims (f i) T i) as [u|] eqn:Ee; [exfalso; apply (Hnb u eq_refl); exact I|].
    apply eik_none in Ee. rewrite Et in Ee. cbn [upw] in Ee. intros j Hj. eapply somes_dmins_empty; eauto.
Qed.

Lemma settled_updated T j u : fr j -> 0 <= j < box_size dims -> eik dims (f j) T j = Some u ->
  better u (T j) -> settled (upd T j u) j.
Proof.
  intros Hfj Hj He Hb. unfold settled. rewrite upd_same, dmins_upd_self by exact Hj.
  destruct (eik_some _ _ _ _ He) as [Hne Hu].
  destruct (RF_bounds (f j) M _ (Hf j Hfj) Rmargin_pos Hne) as [_ [R2 _]]. rewrite <- Hu in R2.
  pose proof Rmargin_pos. destruct (T j) as [t|]; cbn [upw better] in *.
  - rewrite (US_below_eq t) by lra. eapply Rle_lt_trans; [|exact R2]. apply US_mono. lra.
  - eapply Rle_lt_trans; [|exact R2]. apply US_mono. lra.
Qed.

Lemma settled_keep T j u i : 0 <= i < box_size dims -> i <> j ->
  (adjacent dims i j -> ~ better u (T i)) -> settled T i -> settled (upd T j u) i.
Proof.
  intros Hi Hij Hnb Hs. unfold settled in *. rewrite upd_other by exact Hij.
  destruct (T i) as [t|] eqn:Et.
  - cbn in Hnb. eapply Rle_lt_trans; [|exact Hs]. apply US_le; auto. intros k s Hk Hks Hlt.
    destruct (Z.eq_dec k j) as [->|Hkj].
    + rewrite upd_same in Hks. injection Hks as <-. exfalso. apply (Hnb Hk). pose proof Rmargin_pos. lra.
    + rewrite upd_other in Hks by exact Hkj. exists s. split; [exact Hks|lra].
  - intros k Hk. destruct (Z.eq_dec k j) as [->|Hkj]; [exfalso; apply (Hnb Hk); exact I|].
    rewrite upd_other by exact Hkj. apply Hs, Hk.
Qed.

Lemma settled_solution T : Sup T ->
  (forall i, 0 <= i < box_size dims -> fr i -> ~ In i init -> settled T i) ->
  solution dims (fun i => In i init) fr f (2 * M) T.
Proof.
  intros S H. split; [|split].
  - constructor; [apply S|]. intros i t ms Ht Hni Hms.
    rewrite (minima_unique dims T i ms Hp (s_rng _ S i t Ht) Hms).
    destruct (s_reached _ S i t Ht Hni) as [_ [A B]]. auto.
  - constructor; [apply S| |].
    + intros i t ms Hi Hfi Hni Ht Hms. rewrite (minima_unique dims T i ms Hp Hi Hms).
      specialize (H i Hi Hfi Hni). unfold settled in H. rewrite Ht in H. exact H.
    + intros i j Hi Hfi Hni Ht Hj. specialize (H i Hi Hfi Hni). unfold settled in H. rewrite Ht in H. apply H, Hj.
  - intros i t Ht. eapply sup_nonneg; eauto.
Qed.

(** before the first update *)
Lemma sup_start T : (forall i, In i init -> 0 <= i < box_size dims) ->
  (forall i, T i = if in_dec Z.eq_dec i init then Some 0%R else None) -> Sup T.
Proof.
  intros Hr HT. constructor.
  - intros i Hi. rewrite HT. destruct (in_dec Z.eq_dec i init); [reflexivity|contradiction].
  - intros i t H. rewrite HT in H. destruct (in_dec Z.eq_dec i init); [auto|discriminate].
  - intros i t H Hi. rewrite HT in H. destruct (in_dec Z.eq_dec i init); [contradiction|discriminate].
Qed.

Lemma settled_start T i : (forall i, T i = if in_dec Z.eq_dec i init then Some 0%R else None) ->
  ~ In i init -> (forall j, adjacent dims i j -> ~ In j init) -> settled T i.
Proof.
  intros HT Hi Hn. unfold settled. rewrite HT. destruct (in_dec Z.eq_dec i init); [contradiction|].
  intros j Hj. rewrite HT. destruct (in_dec Z.eq_dec j init); [exfalso; eapply Hn; eauto|reflexivity].
Qed.

End Relax.

(** GridUpd.v - reasoning about in-place cell updates, and the frame relation. *)
From Verif Require Import Base BaseFacts Num Grid Spec Obs GridFacts.
Open Scope Z_scope.

Section Upd.
Context {N : Num}.
Implicit Types (g : grid N) (c : cell N).

Lemma getCell_range g i c : getCell g i = Ok c -> 0 <= i < Z.of_nat (length (g_cells g)).
Proof. apply vget_range. Qed.

Lemma getCell_fail g i e : getCell g i = Fail e -> e = UB.
Proof. apply vget_fail. Qed.

Lemma updCell_ok g i f g' :
  updCell g i f = Ok g' <->
  exists c, getCell g i = Ok c /\ g' = with_cells g (lset (g_cells g) (Z.to_nat i) (f c)).
Proof.
  unfold updCell. rewrite bind_ok. split.
  - intros [c [H1 H2]]. injection H2 as <-. eauto.
  - intros [c [H1 ->]]. eauto.
Qed.

Lemma updCell_get g i f g' j :
  updCell g i f = Ok g' ->
  getCell g' j = if i =? j then (match getCell g j with Ok c => Ok (f c) | e => e end)
                 else getCell g j.
Proof.
  intros H. apply updCell_ok in H. destruct H as [c [Hc ->]].
  pose proof (getCell_range _ _ _ Hc) as Hr.
  unfold getCell, vget in *. cbn [with_cells g_cells].
  destruct (Z.leb_spec 0 j) as [Hj|Hj].
  - rewrite nth_error_lset. destruct (Z.eqb_spec i j) as [->|Hne].
    + rewrite Nat.eqb_refl. apply vget_ok in Hc. destruct Hc as [_ Hc]. rewrite Hc. reflexivity.
    + destruct (Nat.eqb_spec (Z.to_nat i) (Z.to_nat j)) as [E|E]; [lia|reflexivity].
  - destruct (Z.eqb_spec i j) as [->|Hne]; [lia|reflexivity].
Qed.

Lemma updCell_in g i c f : getCell g i = Ok c -> exists g', updCell g i f = Ok g'.
Proof. intros H. eexists. apply updCell_ok. eauto. Qed.

Lemma updCell_fields g i f g' :
  updCell g i f = Ok g' ->
  g_sh g' = g_sh g /\ g_leaf g' = g_leaf g /\ g_obs g' = g_obs g /\ g_clean g' = g_clean g /\
  length (g_cells g') = length (g_cells g).
Proof.
  intros H. apply updCell_ok in H. destruct H as [c [Hc ->]]. cbn. rewrite length_lset. auto.
Qed.

Lemma updCell_grid_ok dims g i f g' : updCell g i f = Ok g' -> grid_ok dims g -> grid_ok dims g'.
Proof.
  intros H [H1 H2]. destruct (updCell_fields _ _ _ _ H) as [E1 [_ [_ [_ E5]]]].
  split; congruence.
Qed.

(** Two grids with the same map: shape, leaf size, obstacle list, velocities and
    indices; and the same arrival time on obstacles outside [I]. *)
Definition frame (I : Z -> Prop) g g' : Prop :=
  g_sh g' = g_sh g /\ g_leaf g' = g_leaf g /\ g_obs g' = g_obs g /\ g_clean g' = g_clean g /\
  length (g_cells g') = length (g_cells g) /\
  forall i c, getCell g i = Ok c ->
    exists c', getCell g' i = Ok c' /\ c_occ c' = c_occ c /\ c_idx c' = c_idx c /\
               (isOccupied c = true -> ~ I i -> c_val c' = c_val c).

Lemma frame_refl I g : frame I g g.
Proof. repeat (split; [reflexivity|]). intros i c Hc; exists c; auto. Qed.

Lemma frame_trans I g1 g2 g3 : frame I g1 g2 -> frame I g2 g3 -> frame I g1 g3.
Proof.
  intros [A1 [A2 [A3 [A4 [A5 A6]]]]] [B1 [B2 [B3 [B4 [B5 B6]]]]].
  repeat (split; [congruence|]). intros i c Hc.
  destruct (A6 i c Hc) as [c2 [H1 [H2 [H3 H4]]]].
  destruct (B6 i c2 H1) as [c3 [K1 [K2 [K3 K4]]]].
  exists c3. split; [exact K1|]. split; [congruence|]. split; [congruence|].
  intros Ho Hi. rewrite K4; [apply H4; assumption| |exact Hi].
  unfold isOccupied in *. rewrite H2. exact Ho.
Qed.

Lemma frame_grid_ok I dims g g' : frame I g g' -> grid_ok dims g -> grid_ok dims g'.
Proof. intros [A1 [_ [_ [_ [A5 _]]]]] [H1 H2]. split; congruence. Qed.

(** an update that keeps velocity, index and value *)
Lemma updCell_frame I g i f g' :
  updCell g i f = Ok g' ->
  (forall c, getCell g i = Ok c -> c_occ (f c) = c_occ c /\ c_idx (f c) = c_idx c /\
             (isOccupied c = true -> ~ I i -> c_val (f c) = c_val c)) ->
  frame I g g'.
Proof.
  intros H Hf. destruct (updCell_fields _ _ _ _ H) as [E1 [E2 [E3 [E4 E5]]]].
  repeat (split; [assumption|]). intros j c Hc. rewrite (updCell_get _ _ _ _ j H).
  destruct (Z.eqb_spec i j) as [->|Hne]; [|exists c; auto].
  rewrite Hc. exists (f c). split; [reflexivity|]. apply Hf, Hc.
Qed.

Lemma setState_frame I g i s g' : setState g i s = Ok g' -> frame I g g'.
Proof. intros H. eapply updCell_frame; [exact H|]. intros c _; auto. Qed.

Lemma setBucket_frame I g i s g' : setBucket g i s = Ok g' -> frame I g g'.
Proof. intros H. eapply updCell_frame; [exact H|]. intros c _; auto. Qed.

Lemma setHeuristicTime_frame I g i s g' : setHeuristicTime g i s = Ok g' -> frame I g g'.
Proof. intros H. eapply updCell_frame; [exact H|]. intros c _; auto. Qed.

Lemma setArrivalTime_frame (I : Z -> Prop) g i t g' :
  setArrivalTime g i t = Ok g' ->
  (I i \/ forall c, getCell g i = Ok c -> isOccupied c = false) -> frame I g g'.
Proof.
  intros H Hor. eapply updCell_frame; [exact H|]. intros c Hc.
  repeat (split; [reflexivity|]). intros Ho Hi. destruct Hor as [HI|Hfree]; [contradiction|].
  rewrite (Hfree c Hc) in Ho. discriminate.
Qed.

(** occupancy is preserved by the frame *)
Lemma frame_occ I g g' i c c' :
  frame I g g' -> getCell g i = Ok c -> getCell g' i = Ok c' -> isOccupied c' = isOccupied c.
Proof.
  intros [_ [_ [_ [_ [_ H]]]]] Hc Hc'. destruct (H i c Hc) as [c2 [H1 [H2 _]]].
  assert (c2 = c') by congruence. subst. unfold isOccupied. rewrite H2. reflexivity.
Qed.

(** a cell of the later grid comes from a cell of the earlier one *)
Lemma frame_back I g g' i c' :
  frame I g g' -> getCell g' i = Ok c' ->
  exists c, getCell g i = Ok c /\ c_occ c' = c_occ c /\ c_idx c' = c_idx c.
Proof.
  intros [_ [_ [_ [_ [Hl H]]]]] Hc'. pose proof (getCell_range _ _ _ Hc') as Hr. rewrite Hl in Hr.
  destruct (vget_in_range (g_cells g) i Hr) as [c Hc]. exists c. split; [exact Hc|].
  destruct (H i c Hc) as [c2 [H1 [H2 [H3 _]]]].
  assert (c2 = c') by congruence. subst. auto.
Qed.

Lemma frame_free I g g' i : frame I g g' -> free g i -> free g' i.
Proof.
  intros HF [c [Hc Ho]]. pose proof HF as [_ [_ [_ [_ [_ H]]]]].
  destruct (H i c Hc) as [c' [H1 _]].
  exists c'. split; [exact H1|]. rewrite (frame_occ _ _ _ _ _ _ HF Hc H1). exact Ho.
Qed.

Lemma frame_free_inv I g g' i : frame I g g' -> free g' i -> free g i.
Proof.
  intros HF [c' [Hc' Ho]]. destruct (frame_back _ _ _ _ _ HF Hc') as [c [Hc _]].
  exists c. split; [exact Hc|]. rewrite <- (frame_occ _ _ _ _ _ _ HF Hc Hc'). exact Ho.
Qed.

End Upd.

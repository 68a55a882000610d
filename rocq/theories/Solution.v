(** Solution.v - theory of discrete solutions: comparison principle,
    reachability.  Independent of the solver models. *)
From Coq Require Import Reals Lra Permutation.
From Verif Require Import Base BaseFacts Grid GridFacts Spec EikR.
Open Scope Z_scope.

Definition omin (a b : option R) : option R :=
  match a, b with
  | Some x, Some y => Some (Rmin x y)
  | Some x, None => Some x
  | None, b => b
  end.

Definition dmin (dims : list Z) (T : time_map) (i : Z) (d : nat) : option R :=
  fold_right omin None (map T (nbrs_in dims i d)).

Definition dmins (dims : list Z) (T : time_map) (i : Z) : list (option R) :=
  map (dmin dims T i) (seq 0 (length dims)).

Lemma fold_omin (T : time_map) l :
  match fold_right omin None (map T l) with
  | None => forall j, In j l -> T j = None
  | Some r => (exists j, In j l /\ T j = Some r) /\ (forall j s, In j l -> T j = Some s -> (r <= s)%R)
  end.
Proof.
  induction l as [|x l IH]; cbn; [intros j []|].
  destruct (fold_right omin None (map T l)) as [r|], (T x) as [t|] eqn:E; cbn.
  - destruct IH as [[j [Hj1 Hj2]] Hle]. split.
    + destruct (Rle_dec t r) as [L|L].
      * rewrite Rmin_left by exact L. exists x; auto.
      * rewrite Rmin_right by lra. exists j; auto.
    + intros k s [<-|Hk] Hs.
      * assert (s = t) by congruence; subst. apply Rmin_l.
      * eapply Rle_trans; [apply Rmin_r|]. eapply Hle; eauto.
  - destruct IH as [[j [Hj1 Hj2]] Hle]. split; [exists j; auto|].
    intros k s [<-|Hk] Hs; [congruence|eapply Hle; eauto].
  - split; [exists x; auto|]. intros k s [<-|Hk] Hs; [assert (s = t) by congruence; lra|].
    rewrite IH in Hs by exact Hk; discriminate.
  - intros k [<-|Hk]; [exact E|apply IH, Hk].
Qed.

Lemma dmin_spec dims T i d :
  proper dims -> 0 <= i < box_size dims -> (d < length dims)%nat ->
  dim_min dims T i d (dmin dims T i d).
Proof.
  intros Hp Hi Hd. unfold dim_min, dmin. pose proof (fold_omin T (nbrs_in dims i d)) as H.
  destruct (fold_right omin None (map T (nbrs_in dims i d))) as [r|].
  - destruct H as [[j [H1 H2]] H3]. split.
    + exists j. split; [apply nbrs_in_spec; assumption|exact H2].
    + intros k s Hk. apply H3. apply nbrs_in_spec; assumption.
  - intros k Hk. apply H. apply nbrs_in_spec; assumption.
Qed.

Lemma dim_min_unique dims T i d m m' :
  dim_min dims T i d m -> dim_min dims T i d m' -> m = m'.
Proof.
  destruct m as [r|], m' as [r'|]; cbn; auto.
  - intros [[j [H1 H2]] H3] [[j' [H1' H2']] H3']. f_equal.
    pose proof (H3 _ _ H1' H2'). pose proof (H3' _ _ H1 H2). lra.
  - intros [[j [H1 H2]] H3] H. rewrite H in H2 by exact H1. discriminate.
  - intros H [[j [H1 H2]] H3]. rewrite H in H2 by exact H1. discriminate.
Qed.

Lemma dmins_spec dims T i : proper dims -> 0 <= i < box_size dims -> minima dims T i (dmins dims T i).
Proof.
  intros Hp Hi. unfold minima, dmins.
  assert (H : forall l, (forall d, In d l -> (d < length dims)%nat) ->
            Forall2 (dim_min dims T i) l (map (dmin dims T i) l)).
  { induction l as [|d l IH]; intros Hl; cbn; constructor.
    - apply dmin_spec; auto. apply Hl; left; reflexivity.
    - apply IH; intros; apply Hl; right; assumption. }
  apply H. intros d Hd; apply in_seq in Hd; lia.
Qed.

Lemma minima_unique dims T i ms :
  proper dims -> 0 <= i < box_size dims -> minima dims T i ms -> ms = dmins dims T i.
Proof.
  intros Hp Hi H. pose proof (dmins_spec dims T i Hp Hi) as H'.
  unfold minima in *. revert H'. generalize (dmins dims T i) as ms'.
  induction H as [|d m l ms Hd H IH]; intros ms' H'; inversion H'; subst; [reflexivity|].
  f_equal; [eapply dim_min_unique; eauto|apply IH; assumption].
Qed.

(** contribution of one dimension *)
Definition contr (u : R) (m : option R) : R :=
  match m with Some a => Rsqr (Rmax (u - a) 0) | None => 0%R end.

Lemma US_somes ms u : upwind_sum (somes ms) u = Rsum (map (contr u) ms).
Proof.
  induction ms as [|[a|] ms IH]; [reflexivity| |].
  - change (somes (Some a :: ms)) with (a :: somes ms). rewrite US_cons, IH. reflexivity.
  - change (somes (None :: ms)) with (somes ms). rewrite IH. cbn [map contr].
    change (Rsum (0%R :: map (contr u) ms)) with (0 + Rsum (map (contr u) ms))%R. lra.
Qed.

Lemma in_somes {A} (ms : list (option A)) a : In a (somes ms) <-> In (Some a) ms.
Proof.
  unfold somes. rewrite in_flat_map. split.
  - intros [[x|] [H1 H2]]; cbn in H2; [destruct H2 as [<-|[]]; exact H1|destruct H2].
  - intros H; exists (Some a); split; [exact H|left; reflexivity].
Qed.

Lemma in_dmins dims T i m :
  In m (dmins dims T i) <-> exists d, (d < length dims)%nat /\ m = dmin dims T i d.
Proof.
  unfold dmins. rewrite in_map_iff. split.
  - intros [d [<- Hd]]. apply in_seq in Hd. exists d; split; [lia|reflexivity].
  - intros [d [Hd ->]]. exists d; split; [reflexivity|apply in_seq; lia].
Qed.

(** pointwise comparison of sums *)
Lemma US_dmins_le dims T U i j t u :
  (forall d, (d < length dims)%nat -> (contr t (dmin dims T i d) <= contr u (dmin dims U j d))%R) ->
  (upwind_sum (somes (dmins dims T i)) t <= upwind_sum (somes (dmins dims U j)) u)%R.
Proof.
  intros H. rewrite !US_somes. unfold dmins.
  assert (Hl : forall l, (forall d, In d l -> (d < length dims)%nat) ->
     (Rsum (map (contr t) (map (dmin dims T i) l)) <= Rsum (map (contr u) (map (dmin dims U j) l)))%R).
  { induction l as [|d l IH]; intros Hd; [cbn; lra|]. cbn [map].
    change (Rsum (?a :: ?b)) with (a + Rsum b)%R.
    specialize (IH ltac:(intros; apply Hd; right; assumption)).
    pose proof (H d ltac:(apply Hd; left; reflexivity)).
    unfold Rsum in *. cbn [fold_right]. lra. }
  apply Hl. intros d Hd; apply in_seq in Hd; lia.
Qed.

(** adjacency is adjacency in some dimension *)
Lemma adjacent_in_adjacent dims d i j : adjacent_in dims d i j -> adjacent dims i j.
Proof.
  intros [cs [ds [H1 [H2 [H3 [H4 H5]]]]]]. exists cs, ds. repeat (split; [assumption|]).
  split; [|auto]. apply unit_step_at_iff. exists d; exact H3.
Qed.

Lemma adjacent_adjacent_in dims i j :
  adjacent dims i j -> exists d, (d < length dims)%nat /\ adjacent_in dims d i j.
Proof.
  intros [cs [ds [H1 [H2 [H3 [H4 H5]]]]]]. apply unit_step_at_iff in H3. destruct H3 as [d H3].
  exists d. split; [|exists cs, ds; auto].
  rewrite (in_box_length _ _ H1). eapply unit_step_at_length; eauto.
Qed.

(** *** rank of a cell: number of cells with smaller time *)
Definition tlt (T : time_map) (k i : Z) : bool :=
  match T k, T i with
  | Some a, Some b => if Rlt_dec a b then true else false
  | Some _, None => true
  | None, _ => false
  end.

Definition rank (n : nat) (T : time_map) (i : Z) : nat := length (filter (fun k => tlt T k i) (zseq n)).

Lemma tlt_trans T a b c : tlt T a b = true -> tlt T b c = true -> tlt T a c = true.
Proof.
  unfold tlt. destruct (T a), (T b), (T c); try discriminate; auto.
  repeat destruct (Rlt_dec _ _); auto; try discriminate. lra.
Qed.

Lemma tlt_irrefl T a : tlt T a a = false.
Proof. unfold tlt. destruct (T a); [destruct (Rlt_dec r r); [lra|reflexivity]|reflexivity]. Qed.

Lemma filter_le {A} (p q : A -> bool) l :
  (forall x, p x = true -> q x = true) -> (length (filter p l) <= length (filter q l))%nat.
Proof.
  intros H; induction l as [|x r IH]; cbn; [lia|].
  destruct (p x) eqn:E; [rewrite (H x E); cbn; lia|]. destruct (q x); cbn; lia.
Qed.

Lemma filter_lt {A} (p q : A -> bool) l y :
  (forall x, p x = true -> q x = true) -> In y l -> p y = false -> q y = true ->
  (length (filter p l) < length (filter q l))%nat.
Proof.
  intros H Hin Hp Hq. induction l as [|x r IH]; [destruct Hin|]. cbn.
  destruct Hin as [->|Hin].
  - rewrite Hp, Hq. cbn. pose proof (filter_le p q r H). lia.
  - specialize (IH Hin). destruct (p x) eqn:E; [rewrite (H x E); cbn; lia|].
    destruct (q x); cbn; lia.
Qed.

Lemma rank_lt n T k i : 0 <= k < Z.of_nat n -> tlt T k i = true -> (rank n T k < rank n T i)%nat.
Proof.
  intros Hk H. unfold rank. apply (filter_lt _ _ _ k).
  - intros x Hx. eapply tlt_trans; eauto.
  - apply in_zseq; exact Hk.
  - apply tlt_irrefl.
  - exact H.
Qed.

Lemma rank_le n T i : (rank n T i <= n)%nat.
Proof.
  unfold rank. rewrite <- (length_zseq n) at 2.
  generalize (zseq n) as l; induction l as [|x l IH]; cbn; [lia|]. destruct (tlt T x i); cbn; lia.
Qed.

Section Compare.
Variables (dims : list Z) (src fr : Z -> Prop) (f : Z -> R).
Hypothesis Hp : proper dims.
Hypothesis Hf : forall i, fr i -> (0 < f i)%R.
Hypothesis Hsrc_dec : forall i, {src i} + {~ src i}.

Let n := Z.to_nat (box_size dims).

Lemma super_has_upwind T i t :
  super_solution dims src fr f T -> 0 <= i < box_size dims -> T i = Some t -> ~ src i ->
  exists k a, adjacent dims i k /\ 0 <= k < box_size dims /\ T k = Some a /\ (a < t)%R.
Proof.
  intros HT Hi Ht Hs.
  destruct (sup_free _ _ _ _ _ HT i t _ Ht Hs (dmins_spec dims T i Hp Hi)) as [Hfr Hsum].
  specialize (Hf i Hfr).
  assert (Hex : exists a, In a (somes (dmins dims T i)) /\ (a < t)%R).
  { destruct (Exists_dec (fun a => (a < t)%R) (somes (dmins dims T i)) (fun a => Rlt_dec a t)) as [E|E].
    - apply Exists_exists in E. exact E.
    - exfalso. rewrite US_zero in Hsum; [nra|]. intros a Ha.
      destruct (Rle_dec t a) as [L|L]; [exact L|]. exfalso; apply E, Exists_exists. exists a; split; [exact Ha|lra]. }
  destruct Hex as [a [Ha Hlt]]. apply in_somes, in_dmins in Ha. destruct Ha as [d [Hd Ha]].
  pose proof (dmin_spec dims T i d Hp Hi Hd) as Hm. rewrite <- Ha in Hm. cbn in Hm.
  destruct Hm as [[k [Hk1 Hk2]] _]. exists k, a.
  apply adjacent_in_adjacent in Hk1. split; [exact Hk1|].
  split; [apply (adjacent_range _ _ _ Hk1)|auto].
Qed.

Theorem comparison (delta : R) (T U : time_map) :
  (0 <= delta)%R -> (forall i t, T i = Some t -> 0 <= t)%R ->
  super_solution dims src fr f T -> sub_solution dims src fr f delta U ->
  forall i t, 0 <= i < box_size dims -> T i = Some t ->
  exists u, U i = Some u /\ (u <= t + delta * INR (rank n T i))%R.
Proof.
  intros Hd Hnn HT HU.
  assert (Hall : forall r i t, (rank n T i <= r)%nat -> 0 <= i < box_size dims -> T i = Some t ->
            exists u, U i = Some u /\ (u <= t + delta * INR (rank n T i))%R).
  { induction r as [r IH] using (well_founded_induction lt_wf). intros i t Hr Hi Ht.
    destruct (Hsrc_dec i) as [Hs|Hs].
    - exists 0%R. split; [apply (sub_src _ _ _ _ _ _ HU), Hs|].
      specialize (Hnn i t Ht). pose proof (pos_INR (rank n T i)). nra.
    - destruct (sup_free _ _ _ _ _ HT i t _ Ht Hs (dmins_spec dims T i Hp Hi)) as [Hfr Hsum].
      assert (IHk : forall k a, 0 <= k < box_size dims -> T k = Some a -> (a < t)%R ->
                exists u, U k = Some u /\ (u <= a + delta * (INR (rank n T i) - 1))%R).
      { intros k a Hk Ha Hlt.
        assert (Hrk : (rank n T k < rank n T i)%nat).
        { apply rank_lt; [unfold n; lia|]. unfold tlt. rewrite Ha, Ht.
          destruct (Rlt_dec a t); [reflexivity|contradiction]. }
        destruct (IH (rank n T k) ltac:(lia) k a ltac:(lia) Hk Ha) as [u [Hu1 Hu2]].
        exists u; split; [exact Hu1|].
        assert (INR (rank n T k) <= INR (rank n T i) - 1)%R.
        { apply le_INR in Hrk. rewrite S_INR in Hrk. lra. }
        nra. }
      destruct (U i) as [u|] eqn:Eu.
      + exists u; split; [reflexivity|].
        destruct (Rle_dec u (t + delta * INR (rank n T i))) as [L|L]; [exact L|exfalso].
        pose proof (sub_free _ _ _ _ _ _ HU i u _ Hi Hfr Hs Eu (dmins_spec dims U i Hp Hi)) as Hlt.
        assert (Hle : (upwind_sum (somes (dmins dims T i)) t <=
                       upwind_sum (somes (dmins dims U i)) (u - delta))%R); [|lra].
        apply US_dmins_le. intros d Hdl.
        pose proof (dmin_spec dims T i d Hp Hi Hdl) as HmT.
        pose proof (dmin_spec dims U i d Hp Hi Hdl) as HmU.
        destruct (dmin dims T i d) as [a|]; cbn [contr].
        * destruct (Rlt_dec a t) as [Lt|Lt].
          -- destruct HmT as [[k [Hk1 Hk2]] _].
             pose proof (adjacent_range _ _ _ (adjacent_in_adjacent _ _ _ _ Hk1)) as [_ Hkr].
             destruct (IHk k a Hkr Hk2 Lt) as [b [Hb1 Hb2]].
             destruct (dmin dims U i d) as [b'|]; cbn [dim_min] in HmU.
             ++ destruct HmU as [_ HmU]. specialize (HmU k b Hk1 Hb1).
                cbn [contr]. apply Rmax_sq_mono. lra.
             ++ rewrite HmU in Hb1 by exact Hk1. discriminate.
          -- rewrite Rmax_right by lra. unfold Rsqr. rewrite Rmult_0_l.
             destruct (dmin dims U i d); cbn [contr]; [apply Rle_0_sqr|lra].
        * destruct (dmin dims U i d); cbn [contr]; [apply Rle_0_sqr|lra].
      + exfalso.
        destruct (super_has_upwind T i t HT Hi Ht Hs) as [k [a [Hk1 [Hk2 [Hk3 Hk4]]]]].
        destruct (IHk k a Hk2 Hk3 Hk4) as [b [Hb1 _]].
        rewrite (sub_inf _ _ _ _ _ _ HU i k Hi Hfr Hs Eu Hk1) in Hb1. discriminate. }
  intros i t Hi Ht. eapply Hall; eauto.
Qed.

(** a solution reaches exactly the reachable cells *)
Theorem reached_iff (delta : R) (T : time_map) :
  super_solution dims src fr f T -> sub_solution dims src fr f delta T ->
  (forall i, src i -> 0 <= i < box_size dims) ->
  forall i, 0 <= i < box_size dims -> (T i <> None <-> reachable dims src fr i).
Proof.
  intros HT HU Hsr.
  assert (Hall : forall r i t, (rank n T i <= r)%nat -> 0 <= i < box_size dims -> T i = Some t ->
            reachable dims src fr i).
  { induction r as [r IH] using (well_founded_induction lt_wf). intros i t Hr Hi Ht.
    destruct (Hsrc_dec i) as [Hs|Hs]; [constructor; exact Hs|].
    destruct (sup_free _ _ _ _ _ HT i t _ Ht Hs (dmins_spec dims T i Hp Hi)) as [Hfr Hsum].
    destruct (super_has_upwind T i t HT Hi Ht Hs) as [k [a [Hk1 [Hk2 [Hk3 Hk4]]]]].
    assert (Hrk : (rank n T k < rank n T i)%nat).
    { apply rank_lt; [unfold n; lia|]. unfold tlt. rewrite Hk3, Ht.
      destruct (Rlt_dec a t); [reflexivity|contradiction]. }
    apply (reach_step dims src fr k i); [|apply adjacent_sym, Hk1|exact Hfr].
    eapply (IH (rank n T k)); eauto. lia. }
  intros i Hi. split.
  - destruct (T i) as [t|] eqn:E; [|congruence]. intros _. eapply Hall; eauto.
  - intros H. assert (Hgo : forall i, reachable dims src fr i -> 0 <= i < box_size dims /\ T i <> None).
    { clear i Hi H. intros i H; induction H as [i Hs|i j H IH Hadj Hfr].
      - split; [apply Hsr, Hs|]. rewrite (sub_src _ _ _ _ _ _ HU i Hs). discriminate.
      - destruct IH as [Hi Hne]. pose proof (adjacent_range _ _ _ Hadj) as [_ Hj].
        split; [exact Hj|]. destruct (Hsrc_dec j) as [Hs|Hs].
        + rewrite (sub_src _ _ _ _ _ _ HU j Hs). discriminate.
        + intros Hnone. apply Hne. eapply (sub_inf _ _ _ _ _ _ HU j i); eauto.
          apply adjacent_sym, Hadj. }
    apply Hgo, H.
Qed.

End Compare.

(** two solutions agree up to delta times the number of cells *)
Theorem solutions_agree dims (src fr : Z -> Prop) (f : Z -> R) delta T U :
  proper dims -> (forall i, fr i -> (0 < f i)%R) -> (forall i, {src i} + {~ src i}) ->
  (0 <= delta)%R -> solution dims src fr f delta T -> solution dims src fr f delta U ->
  forall i, 0 <= i < box_size dims ->
    match T i, U i with
    | Some t, Some u => (Rabs (t - u) <= delta * IZR (box_size dims))%R
    | None, None => True
    | _, _ => False
    end.
Proof.
  intros Hp Hf Hdec Hd [HT1 [HT2 HT3]] [HU1 [HU2 HU3]] i Hi.
  assert (Hr : forall V, (INR (rank (Z.to_nat (box_size dims)) V i) <= IZR (box_size dims))%R).
  { intros V. pose proof (rank_le (Z.to_nat (box_size dims)) V i) as H.
    apply le_INR in H. eapply Rle_trans; [exact H|]. rewrite INR_IZR_INZ, Z2Nat.id by lia. lra. }
  destruct (T i) as [t|] eqn:ET, (U i) as [u|] eqn:EU; auto.
  - destruct (comparison dims src fr f Hp Hf Hdec delta T U Hd HT3 HT1 HU2 i t Hi ET) as [u' [H1 H2]].
    destruct (comparison dims src fr f Hp Hf Hdec delta U T Hd HU3 HU1 HT2 i u Hi EU) as [t' [H3 H4]].
    rewrite H1 in EU; injection EU as ->. rewrite H3 in ET; injection ET as ->.
    pose proof (Hr T). pose proof (Hr U). apply Rabs_le. split; nra.
  - destruct (comparison dims src fr f Hp Hf Hdec delta T U Hd HT3 HT1 HU2 i t Hi ET) as [u' [H1 H2]].
    congruence.
  - destruct (comparison dims src fr f Hp Hf Hdec delta U T Hd HU3 HU1 HT2 i u Hi EU) as [t' [H3 H4]].
    congruence.
Qed.

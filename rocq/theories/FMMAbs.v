(** FMMAbs.v - the mathematical core of FMM's correctness: one step on time
    maps, independent of the data structures. *)
From Coq Require Import Reals Lra Permutation Sorted.
From Verif Require Import Base BaseFacts NumXR NumLaws Grid GridFacts Spec EikR Solution.
Open Scope Z_scope.

Notation M := Rmargin.

(** comparison of the sums at [x]: only values below [x] matter *)
Lemma US_le dims T T' i x :
  proper dims -> 0 <= i < box_size dims ->
  (forall k s, adjacent dims i k -> T k = Some s -> (s < x)%R -> exists s', T' k = Some s' /\ (s' <= s)%R) ->
  (upwind_sum (somes (dmins dims T i)) x <= upwind_sum (somes (dmins dims T' i)) x)%R.
Proof.
  intros Hp Hi H. apply US_dmins_le. intros d Hd.
  pose proof (dmin_spec dims T i d Hp Hi Hd) as A. pose proof (dmin_spec dims T' i d Hp Hi Hd) as B.
  destruct (dmin dims T i d) as [a|]; cbn [contr].
  - destruct (Rlt_dec a x) as [L|L].
    + destruct A as [[k [K1 K2]] _]. destruct (H k a (adjacent_in_adjacent _ _ _ _ K1) K2 L) as [s' [S1 S2]].
      destruct (dmin dims T' i d) as [b|].
      * destruct B as [_ B]. specialize (B k s' K1 S1). cbn [contr]. apply Rmax_sq_mono. lra.
      * rewrite (B k K1) in S1. discriminate.
    + rewrite Rmax_right by lra. unfold Rsqr. rewrite Rmult_0_l.
      destruct (dmin dims T' i d); cbn [contr]; [apply Rle_0_sqr|lra].
  - destruct (dmin dims T' i d); cbn [contr]; [apply Rle_0_sqr|lra].
Qed.

Lemma dmins_ext dims T T' i :
  proper dims -> 0 <= i < box_size dims ->
  (forall k, adjacent dims i k -> T k = T' k) -> dmins dims T i = dmins dims T' i.
Proof.
  intros Hp Hi H. apply minima_unique; auto. pose proof (dmins_spec dims T i Hp Hi) as HT.
  unfold minima in *. revert HT. generalize (dmins dims T i) as ms. generalize (seq 0 (length dims)) as ds.
  intros ds ms HT. induction HT as [|d m ds ms Hm _ IH]; constructor; [|exact IH]. clear IH. destruct m as [r|]; cbn in *.
  - destruct Hm as [[j [J1 J2]] J3]. split.
    + exists j. split; [exact J1|]. rewrite <- H; [exact J2|]. eapply adjacent_in_adjacent; eauto.
    + intros k s K1 K2. apply (J3 k); [exact K1|]. rewrite H; [exact K2|]. eapply adjacent_in_adjacent; eauto.
  - intros k K1. rewrite <- H; [apply Hm, K1|]. eapply adjacent_in_adjacent; eauto.
Qed.

(** values of [A] all at most [v], extra values of [B] all at least [v] *)
Lemma dmins_split dims (A B : time_map) j v :
  proper dims -> 0 <= j < box_size dims ->
  (forall k s, adjacent dims j k -> A k = Some s -> B k = Some s /\ (s <= v)%R) ->
  (forall k s, adjacent dims j k -> B k = Some s -> A k = Some s \/ (v <= s)%R) ->
  exists extra, Permutation (somes (dmins dims B j)) (somes (dmins dims A j) ++ extra) /\
    (forall e, In e extra -> (v <= e)%R) /\ (forall a, In a (somes (dmins dims A j)) -> (a <= v)%R).
Proof.
  intros Hp Hj HA HB. unfold dmins.
  assert (Hl : forall l, (forall d, In d l -> (d < length dims)%nat) ->
    exists extra, Permutation (somes (map (dmin dims B j) l)) (somes (map (dmin dims A j) l) ++ extra) /\
    (forall e, In e extra -> (v <= e)%R) /\ (forall a, In a (somes (map (dmin dims A j) l)) -> (a <= v)%R)).
  { induction l as [|d l IH]; intros Hd.
    { exists []. cbn. split; [constructor|]. split; intros _ []. }
    destruct IH as [ex [P1 [P2 P3]]]; [intros; apply Hd; right; assumption|].
    assert (Hdl : (d < length dims)%nat) by (apply Hd; left; reflexivity).
    pose proof (dmin_spec dims A j d Hp Hj Hdl) as DA. pose proof (dmin_spec dims B j d Hp Hj Hdl) as DB.
    cbn [map]. destruct (dmin dims A j d) as [a|].
    - destruct DA as [[k [K1 K2]] K3]. pose proof (adjacent_in_adjacent _ _ _ _ K1) as K1'.
      destruct (HA k a K1' K2) as [K4 K5].
      assert (EB : dmin dims B j d = Some a).
      { destruct (dmin dims B j d) as [b|]; cbn in DB; [|rewrite (DB k K1) in K4; discriminate].
        destruct DB as [[k2 [L1 L2]] L3]. pose proof (L3 k a K1 K4) as Hba. f_equal. apply Rle_antisym; [exact Hba|].
        destruct (HB k2 b (adjacent_in_adjacent _ _ _ _ L1) L2) as [L4|L4]; [exact (K3 k2 b L1 L4)|lra]. }
      rewrite EB. exists ex. change (somes (Some a :: ?r)) with (a :: somes r). cbn [app].
      change (somes (Some a :: ?r)) with (a :: somes r). split; [constructor; exact P1|].
      split; [exact P2|]. intros x [<-|Hx]; [exact K5|apply P3, Hx].
    - change (somes (None :: map (dmin dims A j) l)) with (somes (map (dmin dims A j) l)).
      destruct (dmin dims B j d) as [b|].
      + destruct DB as [[k [L1 L2]] _].
        assert (v <= b)%R.
        { destruct (HB k b (adjacent_in_adjacent _ _ _ _ L1) L2) as [L4|L4]; [|exact L4].
          cbn in DA. rewrite (DA k L1) in L4. discriminate. }
        exists (b :: ex). change (somes (Some b :: ?r)) with (b :: somes r).
        split; [rewrite P1; apply Permutation_middle|]. split; [|exact P3].
        intros e [<-|He]; auto.
      + exists ex. change (somes (None :: ?r)) with (somes r). auto. }
  apply Hl. intros d Hd; apply in_seq in Hd; lia.
Qed.

Lemma US_below_le c l u : (upwind_sum (below c l) u <= upwind_sum l u)%R.
Proof.
  induction l as [|t l IH]; cbn [below filter]; [lra|]. fold (below c l).
  destruct (Rlt_dec t c); rewrite ?US_cons; [lra|]. pose proof (Rle_0_sqr (Rmax (u - t) 0)). lra.
Qed.

Lemma below_below c d l : (c <= d)%R -> below c (below d l) = below c l.
Proof.
  intros H. induction l as [|t l IH]; [reflexivity|]. cbn [below filter]. fold (below d l) (below c l).
  destruct (Rlt_dec t d), (Rlt_dec t c); cbn [below filter]; fold (below c (below d l));
    try (destruct (Rlt_dec t c)); try rewrite IH; try reflexivity; try contradiction; lra.
Qed.

Lemma below_none c l : (forall e, In e l -> (c <= e)%R) -> below c l = [].
Proof.
  intros H. destruct (below c l) as [|y r] eqn:E; [reflexivity|exfalso].
  assert (Hy : In y (below c l)) by (rewrite E; left; reflexivity).
  apply in_below in Hy. destruct Hy as [A B]. specialize (H y A). lra.
Qed.

Lemma below_partition c l : exists r, Permutation l (below c l ++ r) /\ forall e, In e r -> (c <= e)%R.
Proof.
  induction l as [|t l [r [P1 P2]]]; [exists []; split; [constructor|intros _ []]|].
  cbn [below filter]. fold (below c l). destruct (Rlt_dec t c).
  - exists r. split; [cbn; constructor; exact P1|exact P2].
  - exists (t :: r). split; [rewrite P1 at 1; apply Permutation_middle|]. intros e [<-|He]; [lra|auto].
Qed.

Lemma RF_below_le f c l : (0 < f)%R -> below c l <> [] -> (RF f M l <= RF f M (below c l))%R.
Proof.
  intros Hf Hne. destruct (below_partition c l) as [r [P1 P2]].
  rewrite (RF_perm _ _ _ _ P1). apply RF_app_le; auto; [apply Rmargin_pos|].
  intros x y Hx Hy. apply in_below in Hx. specialize (P2 y Hy). lra.
Qed.

Definition upd (T : time_map) (j : Z) (u : R) : time_map := fun i => if Z.eq_dec i j then Some u else T i.

Lemma upd_same T j u : upd T j u j = Some u.
Proof. unfold upd. destruct (Z.eq_dec j j); congruence. Qed.
Lemma upd_other T j u i : i <> j -> upd T j u i = T i.
Proof. unfold upd. destruct (Z.eq_dec i j); congruence. Qed.

(** the times of accepted cells *)
Definition TF (log : list Z) (T : time_map) : time_map := fun i => if in_dec Z.eq_dec i log then T i else None.

Lemma TF_some log T k s : TF log T k = Some s <-> In k log /\ T k = Some s.
Proof. unfold TF. destruct (in_dec Z.eq_dec k log); intuition congruence. Qed.

Section Abs.
Variables (dims : list Z) (init : list Z) (fr : Z -> Prop) (f : Z -> R).
Hypothesis Hp : proper dims.
Hypothesis Hf : forall i, fr i -> (0 < f i)%R.
Hypothesis Hinit : forall i, In i init -> 0 <= i < box_size dims.
(** no free initial point is next to another initial point *)
Hypothesis Hadj : forall i j, In i init -> In j init -> adjacent dims i j -> ~ fr j.

(** the values of accepted neighbours justify the time of a queued cell *)
Definition justified (T : time_map) (log : list Z) (j : Z) : Prop :=
  somes (dmins dims (TF log T) j) <> [] /\
  forall t, T j = Some t -> (t <= RF (f j) M (somes (dmins dims (TF log T) j)) + M)%R.

(** invariant common to the loop head and the neighbour loop *)
Record Base (T : time_map) (hs : Z -> Prop) (log : list Z) : Prop := {
  b_rng : forall i, hs i \/ In i log -> 0 <= i < box_size dims;
  b_disj : forall i, hs i -> In i log -> False;
  b_init : forall i, In i init -> (hs i \/ In i log) /\ T i = Some 0%R;
  b_reached : forall i t, T i = Some t -> ~ In i init ->
     (hs i \/ In i log) /\ (0 < t)%R /\ fr i /\ (f i * f i <= upwind_sum (somes (dmins dims T i)) t)%R;
  b_time : forall i, hs i \/ In i log -> exists t, T i = Some t;
  b_accepted : forall i t, In i log -> ~ In i init -> T i = Some t ->
     (upwind_sum (somes (dmins dims T i)) (t - 2 * M) < f i * f i)%R;
  b_sorted : StronglySorted (fun a b => forall ta tb, T a = Some ta -> T b = Some tb -> (tb <= ta)%R) log
}.

Record Head (T : time_map) (hs : Z -> Prop) (log : list Z) : Prop := {
  h_base : Base T hs log;
  h_order : forall a b ta tb, In a log -> hs b -> T a = Some ta -> T b = Some tb -> (ta <= tb)%R;
  h_just : forall j, hs j -> ~ In j init -> justified T log j;
  h_next : forall a j, In a log -> adjacent dims a j -> fr j -> hs j \/ In j log
}.

Record Inner (m : Z) (v : R) (log pre : list Z) (T : time_map) (hs : Z -> Prop) : Prop := {
  i_base : Base T hs (m :: log);
  i_m : T m = Some v;
  i_lo : forall a ta, In a (m :: log) -> T a = Some ta -> (ta <= v)%R;
  i_hi : forall b tb, hs b -> T b = Some tb -> (v <= tb)%R;
  i_just : forall j, hs j -> ~ In j init ->
     justified T (if in_dec Z.eq_dec j pre then m :: log else if in_dec Z.eq_dec j (nbrs dims m) then log else m :: log) j;
  i_next : forall a j, In a log -> adjacent dims a j -> fr j -> hs j \/ In j (m :: log);
  i_next_m : forall j, In j pre -> fr j -> hs j \/ In j (m :: log)
}.

Lemma base_nonneg T hs log i t : Base T hs log -> T i = Some t -> (0 <= t)%R.
Proof.
  intros B H. destruct (in_dec Z.eq_dec i init) as [Hi|Hi].
  - destruct (b_init _ _ _ B i Hi) as [_ E]. assert (t = 0%R) by congruence. lra.
  - destruct (b_reached _ _ _ B i t H Hi) as [_ [A _]]. lra.
Qed.

Lemma base_dom T hs log i t : Base T hs log -> T i = Some t -> hs i \/ In i log.
Proof.
  intros B H. destruct (in_dec Z.eq_dec i init) as [Hi|Hi].
  - apply (b_init _ _ _ B i Hi).
  - apply (b_reached _ _ _ B i t H Hi).
Qed.

(** extraction of a minimal element *)
Lemma pop_inner T hs hs' log m v :
  Head T hs log -> hs m -> T m = Some v ->
  (forall x t, hs x -> T x = Some t -> (v <= t)%R) ->
  (forall x, hs' x <-> hs x /\ x <> m) ->
  Inner m v log [] T hs'.
Proof.
  intros [B Ho Hj Hn] Hm Hv Hmin Hhs.
  assert (Hs2 : forall x, hs x \/ In x log <-> hs' x \/ In x (m :: log)).
  { intros x. rewrite Hhs. cbn. destruct (Z.eq_dec x m) as [->|Hne]; [tauto|]. intuition congruence. }
  assert (Hmlog : ~ In m log) by (intros H; exact (b_disj _ _ _ B m Hm H)).
  assert (Hmr : 0 <= m < box_size dims) by (apply (b_rng _ _ _ B); auto).
  constructor.
  - constructor.
    + intros i Hi. apply (b_rng _ _ _ B). apply Hs2, Hi.
    + intros i Hi [<-|Hl]; [apply Hhs in Hi; tauto|]. apply Hhs in Hi. exact (b_disj _ _ _ B i (proj1 Hi) Hl).
    + intros i Hi. destruct (b_init _ _ _ B i Hi) as [A1 A2]. split; [apply Hs2, A1|exact A2].
    + intros i t Ht Hi. destruct (b_reached _ _ _ B i t Ht Hi) as [A1 A2]. split; [apply Hs2, A1|exact A2].
    + intros i Hi. apply (b_time _ _ _ B). apply Hs2, Hi.
    + intros i t [<-|Hl] Hi Ht; [|eapply (b_accepted _ _ _ B); eauto].
      assert (t = v) by congruence; subst t.
      destruct (Hj m Hm Hi) as [J1 J2]. specialize (J2 v Hv).
      destruct (b_reached _ _ _ B m v Hv Hi) as [_ [_ [Hfr _]]]. specialize (Hf m Hfr).
      set (X := somes (dmins dims (TF log T) m)) in *.
      destruct (RF_bounds (f m) M X Hf Rmargin_pos J1) as [_ [R2 _]].
      eapply Rle_lt_trans; [|exact R2]. eapply Rle_trans; [apply (US_le dims T (TF log T) m)|]; auto.
      * intros k s K1 K2 K3. exists s. split; [|lra]. apply TF_some. split; [|exact K2].
        destruct (base_dom _ _ _ _ _ B K2) as [K4|K4]; [|exact K4].
        specialize (Hmin k s K4 K2). pose proof Rmargin_pos. lra.
      * apply US_mono. lra.
    + constructor; [apply B|]. apply Forall_forall. intros b Hb ta tb Ha Hb'.
      eapply (Ho b m); eauto.
  - exact Hv.
  - intros a ta [<-|Ha] Hta; [assert (ta = v) by congruence; lra|]. eapply (Ho a m); eauto.
  - intros b tb Hb. apply Hmin. apply Hhs, Hb.
  - intros j Hjs Hji. cbn [in_dec]. destruct (in_dec Z.eq_dec j []) as [[]|_].
    apply Hhs in Hjs. destruct Hjs as [Hjs Hjm]. specialize (Hj j Hjs Hji).
    assert (Hjr : 0 <= j < box_size dims) by (apply (b_rng _ _ _ B); auto).
    destruct (in_dec Z.eq_dec j (nbrs dims m)) as [Hin|Hin]; [exact Hj|].
    unfold justified in *. rewrite (dmins_ext dims (TF (m :: log) T) (TF log T) j Hp Hjr); [exact Hj|].
    intros k Hk. unfold TF. destruct (Z.eq_dec k m) as [->|Hkm].
    + exfalso. apply Hin. apply nbrs_spec; auto. apply adjacent_sym, Hk.
    + destruct (in_dec Z.eq_dec k (m :: log)) as [E1|E1], (in_dec Z.eq_dec k log) as [E2|E2]; auto.
      * destruct E1 as [E1|E1]; [congruence|contradiction].
      * exfalso. apply E1. right; exact E2.
  - intros a j Ha Hadj' Hfj. apply Hs2. eapply Hn; eauto.
  - intros j [].
Qed.

(** end of the neighbour loop *)
Lemma inner_head m v log T hs :
  0 <= m < box_size dims -> Inner m v log (nbrs dims m) T hs -> Head T hs (m :: log).
Proof.
  intros Hm [B E Lo Hi J N Nm]. constructor.
  - exact B.
  - intros a b ta tb Ha Hb Ta Tb. specialize (Lo a ta Ha Ta). specialize (Hi b tb Hb Tb). lra.
  - intros j Hj Hji. specialize (J j Hj Hji).
    destruct (in_dec Z.eq_dec j (nbrs dims m)); exact J.
  - intros a j [<-|Ha] Hadj' Hfj; [|eapply N; eauto]. apply Nm; [|exact Hfj]. apply nbrs_spec; auto.
Qed.

(** initial points are settled before any of their free neighbours is touched *)
Lemma inner_src m v log pre T hs j :
  Inner m v log pre T hs -> adjacent dims m j -> fr j -> In j init -> In j (m :: log).
Proof.
  intros I Ha Hfj Hj. destruct (b_init _ _ _ (i_base _ _ _ _ _ _ I) j Hj) as [[H|H] Ht]; [|exact H].
  exfalso. pose proof (i_hi _ _ _ _ _ _ I j 0%R H Ht) as Hv.
  destruct (in_dec Z.eq_dec m init) as [Hm|Hm].
  - exact (Hadj m j Hm Hj Ha Hfj).
  - destruct (b_reached _ _ _ (i_base _ _ _ _ _ _ I) m v (i_m _ _ _ _ _ _ I) Hm) as [_ [Hpos _]]. lra.
Qed.

Lemma inner_split m v log pre T hs j :
  Inner m v log pre T hs -> 0 <= j < box_size dims ->
  exists extra, Permutation (somes (dmins dims T j)) (somes (dmins dims (TF (m :: log) T) j) ++ extra) /\
    (forall e, In e extra -> (v <= e)%R) /\ (forall a, In a (somes (dmins dims (TF (m :: log) T) j)) -> (a <= v)%R).
Proof.
  intros I Hj. apply dmins_split; auto.
  - intros k s _ Hk. apply TF_some in Hk. destruct Hk as [K1 K2]. split; [exact K2|]. eapply (i_lo _ _ _ _ _ _ I); eauto.
  - intros k s _ Hk. destruct (base_dom _ _ _ _ _ (i_base _ _ _ _ _ _ I) Hk) as [K|K].
    + right. eapply (i_hi _ _ _ _ _ _ I); eauto.
    + left. apply TF_some. auto.
Qed.

Lemma inner_split2 m v log pre T hs j :
  Inner m v log pre T hs -> 0 <= j < box_size dims ->
  exists extra, Permutation (somes (dmins dims (TF (m :: log) T) j)) (somes (dmins dims (TF log T) j) ++ extra) /\
    (forall e, In e extra -> (v <= e)%R) /\ (forall a, In a (somes (dmins dims (TF log T) j)) -> (a <= v)%R).
Proof.
  intros I Hj. apply dmins_split; auto.
  - intros k s _ Hk. apply TF_some in Hk. destruct Hk as [K1 K2].
    split; [apply TF_some; split; [right; exact K1|exact K2]|]. eapply (i_lo _ _ _ _ _ _ I); [right; exact K1|exact K2].
  - intros k s _ Hk. apply TF_some in Hk. destruct Hk as [[<-|K1] K2].
    + right. pose proof (i_m _ _ _ _ _ _ I). assert (s = v) by congruence. lra.
    + left. apply TF_some. auto.
Qed.

(** the neighbour [m] itself *)
Lemma inner_m_value m v log pre T hs j :
  Inner m v log pre T hs -> 0 <= j < box_size dims -> adjacent dims m j ->
  somes (dmins dims (TF (m :: log) T) j) <> [].
Proof.
  intros I Hj Ha E. pose proof (i_m _ _ _ _ _ _ I) as Hv.
  apply adjacent_sym, adjacent_adjacent_in in Ha. destruct Ha as [d [Hd Ha]].
  pose proof (dmin_spec dims (TF (m :: log) T) j d Hp Hj Hd) as D.
  assert (HT : TF (m :: log) T m = Some v) by (apply TF_some; split; [left; reflexivity|exact Hv]).
  destruct (dmin dims (TF (m :: log) T) j d) as [a|] eqn:Ed.
  - assert (Hin : In a (somes (dmins dims (TF (m :: log) T) j))).
    { apply in_somes, in_dmins. exists d. auto. }
    rewrite E in Hin. destruct Hin.
  - cbn in D. rewrite (D m Ha) in HT. discriminate.
Qed.

(** a neighbour that is skipped *)
Lemma inner_skip m v log pre T hs j :
  Inner m v log pre T hs -> In j (m :: log) \/ ~ fr j -> Inner m v log (pre ++ [j]) T hs.
Proof.
  intros I Hsk. constructor; try apply I.
  - intros k Hk Hki. pose proof (i_just _ _ _ _ _ _ I k Hk Hki) as J.
    destruct (in_dec Z.eq_dec k (pre ++ [j])) as [H|H].
    + apply in_app_or in H. destruct H as [H|[<-|[]]].
      * destruct (in_dec Z.eq_dec k pre); [exact J|contradiction].
      * exfalso. destruct Hsk as [Hsk|Hsk].
        -- exact (b_disj _ _ _ (i_base _ _ _ _ _ _ I) j Hk Hsk).
        -- destruct (b_time _ _ _ (i_base _ _ _ _ _ _ I) j (or_introl Hk)) as [t Ht].
           apply Hsk. apply (b_reached _ _ _ (i_base _ _ _ _ _ _ I) j t Ht Hki).
    + destruct (in_dec Z.eq_dec k pre) as [Hp'|Hp']; [exfalso; apply H, in_or_app; auto|exact J].
  - intros k Hk Hfk. apply in_app_or in Hk. destruct Hk as [Hk|[<-|[]]].
    + eapply (i_next_m _ _ _ _ _ _ I); eauto.
    + destruct Hsk as [Hsk|Hsk]; [right; exact Hsk|contradiction].
Qed.

(** values a queued cell at time [t] is updated from *)
Lemma queued_below m v log pre T hs j t :
  Inner m v log pre T hs -> hs j -> ~ In j init -> T j = Some t -> 
  below t (somes (dmins dims T j)) <> [].
Proof.
  intros I Hj Hji Ht E. destruct (b_reached _ _ _ (i_base _ _ _ _ _ _ I) j t Ht Hji) as [_ [_ [Hfr Hs]]].
  specialize (Hf j Hfr). rewrite US_zero in Hs; [nra|].
  intros a Ha. destruct (Rle_dec t a) as [L|L]; [exact L|exfalso].
  assert (Hin : In a (below t (somes (dmins dims T j)))) by (apply in_below; split; [exact Ha|lra]).
  rewrite E in Hin. destruct Hin.
Qed.

(** the recomputed value [u] is at most what the accepted neighbours give *)
Lemma recompute_le m v log pre T hs j t :
  Inner m v log pre T hs -> hs j -> ~ In j init -> T j = Some t -> adjacent dims m j ->
  let w := RF (f j) M (somes (dmins dims (TF (m :: log) T) j)) in
  (t <= w)%R \/ (RF (f j) M (below t (somes (dmins dims T j))) <= w)%R.
Proof.
  intros I Hj Hji Ht Ha w.
  assert (Hjr : 0 <= j < box_size dims) by (apply (b_rng _ _ _ (i_base _ _ _ _ _ _ I)); auto).
  destruct (b_reached _ _ _ (i_base _ _ _ _ _ _ I) j t Ht Hji) as [_ [_ [Hfr _]]]. specialize (Hf j Hfr).
  destruct (Rle_dec t w) as [L|L]; [left; exact L|right].
  destruct (inner_split _ _ _ _ _ _ j I Hjr) as [ex [P1 [P2 P3]]].
  destruct (RF_below (f j) M t _ Hf Rmargin_pos (inner_m_value _ _ _ _ _ _ j I Hjr Ha) ltac:(fold w; lra)) as [N E].
  unfold w. rewrite <- E. rewrite (RF_perm _ _ _ _ (below_perm t _ _ P1)), below_app.
  apply RF_app_le; auto; [apply Rmargin_pos|].
  intros x y Hx Hy. apply in_below in Hx. apply in_below in Hy.
  specialize (P2 y (proj1 Hy)). specialize (P3 x (proj1 Hx)). lra.
Qed.

(** the update of a queued cell is not accepted *)
Lemma inner_keep m v log pre T hs j t :
  Inner m v log pre T hs -> hs j -> ~ In j init -> T j = Some t -> adjacent dims m j ->
  (t <= RF (f j) M (below t (somes (dmins dims T j))) + M)%R ->
  Inner m v log (pre ++ [j]) T hs.
Proof.
  intros I Hj Hji Ht Ha Hu.
  assert (Hjr : 0 <= j < box_size dims) by (apply (b_rng _ _ _ (i_base _ _ _ _ _ _ I)); auto).
  constructor; try apply I.
  - intros k Hk Hki. pose proof (i_just _ _ _ _ _ _ I k Hk Hki) as J.
    destruct (in_dec Z.eq_dec k (pre ++ [j])) as [H|H].
    + destruct (in_dec Z.eq_dec k pre) as [H2|H2]; [exact J|].
      apply in_app_or in H. destruct H as [H|[<-|[]]]; [contradiction|].
      split; [eapply inner_m_value; eauto|]. intros t' Ht'. assert (t' = t) by congruence; subst t'.
      pose proof Rmargin_pos.
      destruct (recompute_le _ _ _ _ _ _ j t I Hj Hji Ht Ha) as [L|L]; cbn zeta in L; lra.
    + destruct (in_dec Z.eq_dec k pre) as [Hp'|Hp']; [exfalso; apply H, in_or_app; auto|exact J].
  - intros k Hk Hfk. apply in_app_or in Hk. destruct Hk as [Hk|[<-|[]]].
    + eapply (i_next_m _ _ _ _ _ _ I); eauto.
    + left; exact Hj.
Qed.

(** writing a value at least [v] into a cell that is not accepted *)
Lemma inner_write m v log pre T hs hs' j u :
  Inner m v log pre T hs -> ~ In j (m :: log) -> ~ In j init -> fr j -> adjacent dims m j ->
  (forall x, hs' x <-> hs x \/ x = j) ->
  (forall t, T j = Some t -> (u <= t)%R) -> (v <= u)%R -> (0 < u)%R ->
  (f j * f j <= upwind_sum (somes (dmins dims T j)) u)%R ->
  (u <= RF (f j) M (somes (dmins dims (TF (m :: log) T) j)) + M)%R ->
  Inner m v log (pre ++ [j]) (upd T j u) hs'.
Proof.
  intros I Hnl Hji Hfr Ha Hhs Hdec Hvu Hpos Hsup Hju. pose proof (i_base _ _ _ _ _ _ I) as B.
  pose proof (adjacent_range _ _ _ Ha) as [Hmr Hjr].
  assert (Hself : dmins dims (upd T j u) j = dmins dims T j).
  { apply dmins_ext; auto. intros k Hk. apply upd_other. intros ->. eapply adjacent_irrefl; eauto. }
  assert (HTF : forall l i, (forall x, In x l -> In x (m :: log)) -> 0 <= i < box_size dims ->
            dmins dims (TF l (upd T j u)) i = dmins dims (TF l T) i).
  { intros l i Hl Hi. apply dmins_ext; auto. intros k _. unfold TF.
    destruct (in_dec Z.eq_dec k l) as [E|E]; [|reflexivity]. apply upd_other. intros ->. auto. }
  assert (Hdom : forall i, hs i \/ In i (m :: log) -> hs' i \/ In i (m :: log)).
  { intros i [H|H]; [left; apply Hhs; auto|auto]. }
  assert (Hsum : forall i x, 0 <= i < box_size dims ->
     (upwind_sum (somes (dmins dims T i)) x <= upwind_sum (somes (dmins dims (upd T j u) i)) x)%R).
  { intros i x Hi. apply US_le; auto. intros k s _ Hk _. destruct (Z.eq_dec k j) as [->|Hne].
    - exists u. split; [apply upd_same|apply Hdec, Hk].
    - exists s. split; [rewrite upd_other by exact Hne; exact Hk|lra]. }
  constructor.
  - constructor.
    + intros i [Hi|Hi]; [|apply (b_rng _ _ _ B); auto]. apply Hhs in Hi. destruct Hi as [Hi| ->]; [|exact Hjr].
      apply (b_rng _ _ _ B); auto.
    + intros i Hi Hl. apply Hhs in Hi. destruct Hi as [Hi| ->]; [|contradiction]. exact (b_disj _ _ _ B i Hi Hl).
    + intros i Hi. destruct (b_init _ _ _ B i Hi) as [A1 A2]. split; [apply Hdom, A1|].
      rewrite upd_other; [exact A2|]. intros ->; contradiction.
    + intros i t Ht Hi. destruct (Z.eq_dec i j) as [->|Hne].
      * rewrite upd_same in Ht. injection Ht as <-. split; [left; apply Hhs; auto|].
        split; [exact Hpos|]. split; [exact Hfr|]. rewrite Hself. exact Hsup.
      * rewrite upd_other in Ht by exact Hne. destruct (b_reached _ _ _ B i t Ht Hi) as [A1 [A2 [A3 A4]]].
        split; [apply Hdom, A1|]. split; [exact A2|]. split; [exact A3|].
        eapply Rle_trans; [exact A4|]. apply Hsum. apply (b_rng _ _ _ B), A1.
    + intros i Hi. destruct (Z.eq_dec i j) as [->|Hne]; [exists u; apply upd_same|].
      rewrite upd_other by exact Hne. apply (b_time _ _ _ B). destruct Hi as [Hi|Hi]; [|auto].
      apply Hhs in Hi. destruct Hi as [Hi|Hi]; [auto|contradiction].
    + intros i t Hi Hii Ht. assert (Hne : i <> j) by (intros ->; contradiction).
      rewrite upd_other in Ht by exact Hne. eapply Rle_lt_trans; [|eapply (b_accepted _ _ _ B); eauto].
      pose proof (i_lo _ _ _ _ _ _ I i t Hi Ht) as Hti. pose proof Rmargin_pos.
      apply US_le; auto; [apply (b_rng _ _ _ B); auto|]. intros k s _ Hk Hs.
      destruct (Z.eq_dec k j) as [->|Hk'].
      * rewrite upd_same in Hk. injection Hk as <-. lra.
      * rewrite upd_other in Hk by exact Hk'. exists s. split; [exact Hk|lra].
    + pose proof (b_sorted _ _ _ B) as Hs. clear - Hs Hnl. revert Hnl Hs. generalize (m :: log) as l.
      induction l as [|x l IH]; intros Hnl Hs; [constructor|]. inversion Hs as [|? ? Hs1 Hs2]; subst.
      constructor; [apply IH; [intros H; apply Hnl; right; exact H|exact Hs1]|].
      rewrite Forall_forall in *. intros b Hb ta tb.
      rewrite !upd_other; [apply Hs2, Hb| |]; intros ->; apply Hnl; [right; exact Hb|left; reflexivity].
  - rewrite upd_other; [apply I|]. intros <-. apply Hnl. left; reflexivity.
  - intros a ta Ha' Hta. rewrite upd_other in Hta by (intros ->; contradiction). eapply (i_lo _ _ _ _ _ _ I); eauto.
  - intros b tb Hb Htb. destruct (Z.eq_dec b j) as [->|Hne].
    + rewrite upd_same in Htb. injection Htb as <-. exact Hvu.
    + rewrite upd_other in Htb by exact Hne. apply Hhs in Hb. destruct Hb as [Hb|Hb]; [|contradiction].
      eapply (i_hi _ _ _ _ _ _ I); eauto.
  - intros k Hk Hki. destruct (Z.eq_dec k j) as [->|Hne].
    + destruct (in_dec Z.eq_dec j (pre ++ [j])) as [_|E]; [|exfalso; apply E, in_or_app; right; left; reflexivity].
      unfold justified. rewrite HTF by auto. split; [eapply inner_m_value; eauto|].
      intros t Ht. rewrite upd_same in Ht. injection Ht as <-. exact Hju.
    + apply Hhs in Hk. destruct Hk as [Hk|Hk]; [|contradiction].
      assert (Hkr : 0 <= k < box_size dims) by (apply (b_rng _ _ _ B); auto).
      pose proof (i_just _ _ _ _ _ _ I k Hk Hki) as J.
      assert (E : (if in_dec Z.eq_dec k (pre ++ [j]) then m :: log else
                   if in_dec Z.eq_dec k (nbrs dims m) then log else m :: log) =
                  (if in_dec Z.eq_dec k pre then m :: log else
                   if in_dec Z.eq_dec k (nbrs dims m) then log else m :: log)).
      { destruct (in_dec Z.eq_dec k (pre ++ [j])) as [E1|E1], (in_dec Z.eq_dec k pre) as [E2|E2]; auto.
        - apply in_app_or in E1. destruct E1 as [E1|[E1|[]]]; [contradiction|congruence].
        - exfalso. apply E1, in_or_app; auto. }
      rewrite E. unfold justified in *.
      set (l := if in_dec Z.eq_dec k pre then _ else _) in *.
      assert (Hl : forall x, In x l -> In x (m :: log)).
      { intros x. unfold l. destruct (in_dec Z.eq_dec k pre); [auto|].
        destruct (in_dec Z.eq_dec k (nbrs dims m)); [cbn; auto|auto]. }
      rewrite HTF by auto. destruct J as [J1 J2]. split; [exact J1|].
      intros t Ht. rewrite upd_other in Ht by exact Hne. auto.
  - intros a k Ha' Hk Hfk. apply Hdom. eapply (i_next _ _ _ _ _ _ I); eauto.
  - intros k Hk Hfk. apply in_app_or in Hk. destruct Hk as [Hk|[<-|[]]].
    + apply Hdom. eapply (i_next_m _ _ _ _ _ _ I); eauto.
    + left. apply Hhs. auto.
Qed.

(** an accepted update of a queued cell *)
Lemma inner_improve m v log pre T hs j t :
  Inner m v log pre T hs -> hs j -> ~ In j init -> T j = Some t -> adjacent dims m j -> ~ In j pre ->
  let u := RF (f j) M (below t (somes (dmins dims T j))) in
  (u + M < t)%R ->
  Inner m v log (pre ++ [j]) (upd T j u) hs.
Proof.
  intros I Hj Hji Ht Ha Hpre u Hu. pose proof (i_base _ _ _ _ _ _ I) as B.
  assert (Hjr : 0 <= j < box_size dims) by (apply (b_rng _ _ _ B); auto).
  assert (Hmr : 0 <= m < box_size dims) by (apply (adjacent_range _ _ _ Ha)).
  destruct (b_reached _ _ _ B j t Ht Hji) as [_ [_ [Hfr _]]]. pose proof (Hf j Hfr) as Hfj.
  pose proof (queued_below _ _ _ _ _ _ j t I Hj Hji Ht) as Hne.
  pose proof Rmargin_pos as HM.
  destruct (RF_bounds (f j) M _ Hfj HM Hne) as [R1 [_ [a [R3 R4]]]]. fold u in R1, R4.
  assert (Hvu : (v <= u)%R).
  { destruct (Rle_dec v u) as [L|L]; [exact L|exfalso].
    destruct (RF_below (f j) M v _ Hfj HM Hne ltac:(fold u; lra)) as [N E]. fold u in E.
    pose proof (i_hi _ _ _ _ _ _ I j t Hj Ht) as Hvt.
    rewrite below_below in N, E by exact Hvt.
    destruct (inner_split _ _ _ _ _ _ j I Hjr) as [ex [P1 [P2 P3]]].
    destruct (inner_split2 _ _ _ _ _ _ j I Hjr) as [ex2 [Q1 [Q2 Q3]]].
    assert (P : Permutation (below v (somes (dmins dims T j))) (below v (somes (dmins dims (TF log T) j)))).
    { rewrite (below_perm v _ _ P1), below_app, (below_none v ex P2), app_nil_r.
      rewrite (below_perm v _ _ Q1), below_app, (below_none v ex2 Q2), app_nil_r. reflexivity. }
    rewrite (RF_perm _ _ _ _ P) in E.
    assert (N' : below v (somes (dmins dims (TF log T) j)) <> []).
    { intros E0. rewrite E0 in P. apply Permutation_sym, Permutation_nil in P. contradiction. }
    pose proof (RF_below_le (f j) v _ Hfj N') as Hle. rewrite E in Hle.
    destruct (i_just _ _ _ _ _ _ I j Hj Hji) as [_ J].
    destruct (in_dec Z.eq_dec j pre) as [H|_]; [contradiction|].
    destruct (in_dec Z.eq_dec j (nbrs dims m)) as [_|H]; [|exfalso; apply H, nbrs_spec; auto].
    specialize (J t Ht). lra. }
  apply (inner_write m v log pre T hs hs j u); auto.
  - intros H. exact (b_disj _ _ _ B j Hj H).
  - intros x. split; [auto|]. intros [H| ->]; auto.
  - intros t' Ht'. assert (t' = t) by congruence. lra.
  - apply in_below in R3. destruct R3 as [R3 _]. apply in_somes, in_dmins in R3. destruct R3 as [d [Hd R3]].
    pose proof (dmin_spec dims T j d Hp Hjr Hd) as D. rewrite <- R3 in D. destruct D as [[k [_ K]] _].
    pose proof (base_nonneg _ _ _ _ _ B K). lra.
  - eapply Rle_trans; [exact R1|]. apply US_below_le.
  - destruct (recompute_le _ _ _ _ _ _ j t I Hj Hji Ht Ha) as [L|L]; cbn zeta in L; fold u in L; lra.
Qed.

(** a new cell *)
Lemma inner_new m v log pre T hs hs' j :
  Inner m v log pre T hs -> ~ hs j -> ~ In j (m :: log) -> ~ In j init -> fr j -> adjacent dims m j ->
  (forall x, hs' x <-> hs x \/ x = j) ->
  let u := RF (f j) M (somes (dmins dims T j)) in
  T j = None /\ somes (dmins dims T j) <> [] /\ Inner m v log (pre ++ [j]) (upd T j u) hs'.
Proof.
  intros I Hnj Hnl Hji Hfr Ha Hhs u. pose proof (i_base _ _ _ _ _ _ I) as B.
  pose proof (adjacent_range _ _ _ Ha) as [Hmr Hjr]. pose proof (Hf j Hfr) as Hfj. pose proof Rmargin_pos as HM.
  assert (HTj : T j = None).
  { destruct (T j) as [t|] eqn:E; [exfalso|reflexivity]. destruct (base_dom _ _ _ _ _ B E) as [H|H]; contradiction. }
  split; [exact HTj|].
  destruct (inner_split _ _ _ _ _ _ j I Hjr) as [ex [P1 [P2 P3]]].
  pose proof (inner_m_value _ _ _ _ _ _ j I Hjr Ha) as HN.
  assert (Hne : somes (dmins dims T j) <> []).
  { intros E. rewrite E in P1. apply Permutation_nil in P1. apply app_eq_nil in P1. tauto. }
  split; [exact Hne|].
  destruct (RF_bounds (f j) M _ Hfj HM Hne) as [R1 [_ [a [R3 R4]]]]. fold u in R1, R4.
  apply in_somes, in_dmins in R3. destruct R3 as [d [Hd R3]].
  pose proof (dmin_spec dims T j d Hp Hjr Hd) as D. rewrite <- R3 in D. destruct D as [[k [K1 K]] _].
  apply adjacent_in_adjacent in K1.
  assert (Hva : (v <= a)%R).
  { destruct (base_dom _ _ _ _ _ B K) as [H|[<-|H]].
    - eapply (i_hi _ _ _ _ _ _ I); eauto.
    - pose proof (i_m _ _ _ _ _ _ I). assert (a = v) by congruence. lra.
    - exfalso. destruct (i_next _ _ _ _ _ _ I k j H (adjacent_sym _ _ _ K1) Hfr); contradiction. }
  pose proof (base_nonneg _ _ _ _ _ B K).
  apply (inner_write m v log pre T hs hs' j u); auto; try lra.
  - intros t Ht; congruence.
  - assert (u <= RF (f j) M (somes (dmins dims (TF (m :: log) T) j)))%R; [|lra].
    unfold u. rewrite (RF_perm _ _ _ _ P1). apply RF_app_le; auto.
    intros x y Hx Hy. specialize (P2 y Hy). specialize (P3 x Hx). lra.
Qed.

(** only the set of queued cells matters *)
Lemma base_hs T hs hs' log : (forall x, hs' x <-> hs x) -> Base T hs log -> Base T hs' log.
Proof.
  intros H B.
  assert (H2 : forall x, hs' x \/ In x log <-> hs x \/ In x log) by (intros x; rewrite H; tauto).
  constructor; try apply B.
  - intros i Hi. apply (b_rng _ _ _ B), H2, Hi.
  - intros i Hi. apply (b_disj _ _ _ B), H, Hi.
  - intros i Hi. destruct (b_init _ _ _ B i Hi). split; [apply H2|]; assumption.
  - intros i t Ht Hi. destruct (b_reached _ _ _ B i t Ht Hi) as [A C]. split; [apply H2, A|exact C].
  - intros i Hi. apply (b_time _ _ _ B), H2, Hi.
Qed.

Lemma head_hs T hs hs' log : (forall x, hs' x <-> hs x) -> Head T hs log -> Head T hs' log.
Proof.
  intros H [B Ho Hj Hn]. constructor.
  - eapply base_hs; eauto.
  - intros a b ta tb Ha Hb. apply Ho; [exact Ha|apply H, Hb].
  - intros j Hj'. apply Hj, H, Hj'.
  - intros a j Ha Hadj' Hfj. rewrite H. eapply Hn; eauto.
Qed.

Lemma inner_hs m v log pre T hs hs' :
  (forall x, hs' x <-> hs x) -> Inner m v log pre T hs -> Inner m v log pre T hs'.
Proof.
  intros H [B E Lo Hi J N Nm]. constructor; auto.
  - eapply base_hs; eauto.
  - intros b tb Hb. apply Hi, H, Hb.
  - intros j Hj. apply J, H, Hj.
  - intros a j Ha Hadj' Hfj. rewrite H. eapply N; eauto.
  - intros j Hj Hfj. rewrite H. eapply Nm; eauto.
Qed.

(** when nothing is queued any more the times are a solution *)
Lemma head_solution T log :
  Head T (fun _ => False) log ->
  solution dims (fun i => In i init) fr f (2 * M) T.
Proof.
  intros [B Ho Hj Hn]. split; [|split].
  - split.
    + intros i Hi. apply (b_init _ _ _ B i Hi).
    + intros i t ms Ht Hi Hms.
      destruct (b_reached _ _ _ B i t Ht Hi) as [A1 [_ [A2 A3]]].
      apply minima_unique in Hms; [|exact Hp|apply (b_rng _ _ _ B), A1]. subst ms. auto.
  - split.
    + intros i Hi. apply (b_init _ _ _ B i Hi).
    + intros i t ms Hi Hfr Hii Ht Hms. apply minima_unique in Hms; [|exact Hp|exact Hi]. subst ms.
      destruct (b_reached _ _ _ B i t Ht Hii) as [[[]|A1] _]. eapply (b_accepted _ _ _ B); eauto.
    + intros i j Hi Hfr Hii HTi Ha. destruct (T j) as [t|] eqn:E; [exfalso|reflexivity].
      destruct (base_dom _ _ _ _ _ B E) as [[]|Hl].
      destruct (Hn j i Hl (adjacent_sym _ _ _ Ha) Hfr) as [[]|Hl2].
      destruct (b_time _ _ _ B i (or_intror Hl2)) as [t' Ht']. congruence.
  - intros i t Ht. eapply base_nonneg; eauto.
Qed.

(** the state right after the initial points are queued *)
Lemma head_init T hs :
  (forall i, hs i <-> In i init) -> (forall i, In i init -> T i = Some 0%R) ->
  (forall i, ~ In i init -> T i = None) -> Head T hs [].
Proof.
  intros Hhs H1 H2. constructor.
  - constructor.
    + intros i [Hi|[]]. apply Hinit, Hhs, Hi.
    + intros i _ [].
    + intros i Hi. split; [left; apply Hhs, Hi|apply H1, Hi].
    + intros i t Ht Hi. rewrite H2 in Ht by exact Hi. discriminate.
    + intros i [Hi|[]]. exists 0%R. apply H1, Hhs, Hi.
    + intros i t [].
    + constructor.
  - intros a b ta tb [].
  - intros j Hj Hji. apply Hhs in Hj. contradiction.
  - intros a j [].
Qed.

End Abs.

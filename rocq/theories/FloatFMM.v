(** FloatFMM.v - FMM in doubles: the frozen times are within rounding of the
    exact solution (C78).  The argument is Dijkstra's, with relative errors; no
    monotonicity of the extracted times is needed. *)
From Coq Require Import Reals Lra Permutation FunctionalExtensionality.
From Flocq Require Import Core IEEE754.BinarySingleNaN.
From Verif Require Import Base BaseFacts Num NumXR NumF64 NumLaws Grid GridFacts GridUpd GridMore Spec Obs Eikonal
  FMMModel HeapRef HeapLaws Frame FMMStruct EikR Solution XGrid FMMAbs Exact Relax
  FloatOps FloatEik FloatErr FloatUpd FloatAbs FloatGrid FloatSweep.
Open Scope Z_scope.

Section FF.
Variable HO : HeapOps F64.
Variable HL : HeapLaws HO.
Variable dims : list Z.
Hypothesis Hd2 : dims2 dims.
Hypothesis Hlt : 2 * box_size dims <= 4294967296.
Variable cfg : fmm_cfg (N := F64).
Hypothesis Hcfg : fc_strat cfg = NOHEUR.
Variable init : list Z.
Hypothesis Hnd : NoDup init.
Hypothesis Hrng : forall i, In i init -> 0 <= i < box_size dims.
Variable g0 : grid F64.
Hypothesis Hg0 : grid_ok dims g0.
Hypothesis Hrg : range_ok g0.
Hypothesis Hfresh : forall i c, getCell g0 i = Ok c -> c_val c = ninf /\ c_state c = OPEN /\ c_h c = n0.
Hypothesis Hadj : forall i j, In i init -> In j init -> adjacent dims i j -> ~ free g0 j.

Let Hp : proper dims := dims2_proper' dims Hd2.
Notation fr := (free g0).
Notation f := (slow64 g0).
Variables flo fhi : R.
Hypothesis Hflo : (0 < flo)%R.
Hypothesis Hfh : (0 <= fhi)%R.
Hypothesis Hfr : forall i, fr i -> (flo <= f i <= fhi)%R.
Notation nd := (INR (length dims)).
Hypothesis Hsmall : (256 * (nd * nd * nd * nd) * (uu * ((Bmax dims fhi + 3 * fhi) * (Bmax dims fhi + 3 * fhi))) <= flo * flo)%R.
Variable XE : time_map.
Hypothesis HX : exact_solution dims (fun i => In i init) fr f XE.
Variable Xm : R.
Hypothesis HXm : forall i x, XE i = Some x -> (x <= Xm)%R.
Notation kap := (kappa_hi dims flo fhi Xm).

Let Hheur : heur_ok dims cfg := or_introl Hcfg.

Notation SET A T i := (settled_by dims f A T i).
Notation nn := (Z.to_nat (box_size dims)).

(** ** time maps *)
Lemma kap_pos : (0 <= kap)%R.
Proof.
  unfold kappa_hi, slack_hi, Rdiv. pose proof Rmargin_pos. pose proof (dlt_nonneg nd flo (2 * Xm + 5 * fhi) Hflo).
  apply Rmult_le_pos; [apply Rmult_le_pos; [apply pos_INR|lra]|apply Rlt_le, Rinv_0_lt_compat, Hflo].
Qed.

Lemma settled_weaken A A' T i : 0 <= i < box_size dims ->
  (forall k s, A' k = Some s -> A k = Some s) -> SET A T i -> SET A' T i.
Proof.
  intros Hi H. unfold settled_by. destruct (T i) as [t|].
  - intros Hs. eapply Rle_lt_trans; [|exact Hs]. apply US_le; auto. intros k s _ Hk _. exists s. split; [auto|lra].
  - intros Hs j Hj. destruct (A' j) as [s|] eqn:E; [|reflexivity]. rewrite <- (Hs j Hj). symmetry. auto.
Qed.

Lemma settled_ext A A' T T' i : 0 <= i < box_size dims -> T i = T' i ->
  (forall k, adjacent dims i k -> A k = A' k) -> SET A T i -> SET A' T' i.
Proof.
  intros Hi HT H. unfold settled_by. rewrite <- HT. destruct (T i) as [t|].
  - rewrite (dmins_ext dims A A' i Hp Hi H). auto.
  - intros Hs j Hj. rewrite <- H by exact Hj. auto.
Qed.

(** [q]: the cells in the narrow band; [log]: the frozen ones *)
Record FHead (T : time_map) (q : Z -> Prop) (log : list Z) : Prop := {
  fh_s : FSup dims init fr fhi T;
  fh_n : not_early dims flo fhi XE Xm T;
  fh_t : forall i, T i <> None <-> q i \/ In i log;
  fh_src : forall i, In i init -> q i \/ In i log;
  fh_set : forall i, 0 <= i < box_size dims -> fr i -> ~ In i init -> ~ In i log -> SET (TF log T) T i;
  fh_acc : (kap <= 1)%R -> forall i x t, In i log -> XE i = Some x -> T i = Some t -> (t <= (1 + kap) * x)%R
}.

(** after the extraction of [m], neighbours [pre] done *)
Record FInner (T : time_map) (q : Z -> Prop) (m : Z) (log : list Z) (pre : list Z) : Prop := {
  fi_s : FSup dims init fr fhi T;
  fi_n : not_early dims flo fhi XE Xm T;
  fi_t : forall i, T i <> None <-> q i \/ In i (m :: log);
  fi_src : forall i, In i init -> q i \/ In i (m :: log);
  fi_set : forall i, 0 <= i < box_size dims -> fr i -> ~ In i init -> ~ In i (m :: log) ->
     ~ adjacent dims m i \/ In i pre -> SET (TF (m :: log) T) T i;
  fi_acc : (kap <= 1)%R -> forall i x t, In i (m :: log) -> XE i = Some x -> T i = Some t -> (t <= (1 + kap) * x)%R;
  fi_srcs : forall i, In i init -> fr i -> adjacent dims m i -> In i (m :: log)
}.

(** every cell of least exact time outside the log is settled by the log *)
Lemma least_out T q log k y : (kap <= 1)%R -> FHead T q log -> XE k = Some y -> ~ In k log -> ~ In k init ->
  (forall k' y', XE k' = Some y' -> (y' < y)%R -> In k' log) ->
  exists t, T k = Some t /\ (t <= (1 + kap) * y)%R.
Proof.
  intros Hk1 [S NE Ht Hsrc Hset Hacc] Hk Hnl Hni Hmin.
  destruct (exact_ms dims init fr f Hp XE HX k y Hk Hni) as [Hkr [Hfk Heq]].
  pose proof (Hfr k Hfk) as Hfkr.
  destruct (US_pos_has dims Hp XE k y Hkr ltac:(rewrite Heq; nra)) as [k1 [y1 [Ha [Hk1' Hlt1]]]].
  assert (HA : forall k' y', adjacent dims k k' -> XE k' = Some y' -> (y' < y)%R ->
     exists s, TF log T k' = Some s /\ (s <= (1 + kap) * y')%R).
  { intros k' y' _ Hy' Hlt'. pose proof (Hmin k' y' Hy' Hlt') as Hin.
    destruct (T k') as [s|] eqn:E; [|exfalso; apply (proj2 (Ht k') (or_intror Hin)), E].
    exists s. split; [apply TF_some; auto|]. eauto. }
  specialize (Hset k Hkr Hfk Hni Hnl). destruct (T k) as [t|] eqn:Et.
  - exists t. split; [reflexivity|].
    assert (Hn : (1 <= nd)%R).
    { apply (n_ge1 dims (somes (dmins dims XE k))); [|apply dmins_length]. intros E. rewrite E in Heq. cbn in Heq. nra. }
    eapply (settled_not_late dims init fr f Hp flo fhi Hflo Hfr Hsmall XE HX Xm HXm Hk1 (TF log T) T k y t); eauto.
    eapply fs_bound; eauto.
  - exfalso. destruct (HA k1 y1 Ha Hk1' Hlt1) as [s [Hs _]]. unfold settled_by in Hset. rewrite Et in Hset.
    rewrite (Hset k1 Ha) in Hs. discriminate.
Qed.

(** some cell of least exact time outside the log *)
Lemma least_exists log i x : XE i = Some x -> ~ In i log ->
  exists k y, XE k = Some y /\ ~ In k log /\ (y <= x)%R /\ (forall k' y', XE k' = Some y' -> (y' < y)%R -> In k' log).
Proof.
  assert (Hall : forall r i x, (rank nn XE i <= r)%nat -> XE i = Some x -> ~ In i log ->
    exists k y, XE k = Some y /\ ~ In k log /\ (y <= x)%R /\ (forall k' y', XE k' = Some y' -> (y' < y)%R -> In k' log)).
  { assert (Hdec : forall j, {Exists (fun k => tlt XE k j = true /\ ~ In k log) (zseq nn)} + {~ Exists (fun k => tlt XE k j = true /\ ~ In k log) (zseq nn)}).
    { intros j. apply Exists_dec. intros k. destruct (tlt XE k j); [|right; intros [K _]; discriminate].
      destruct (in_dec Z.eq_dec k log); [right; intros [_ K]; contradiction|left; auto]. }
    induction r as [|r IH]; intros j y Hr Hj Hnl; (destruct (Hdec j) as [E|E]; [apply Exists_exists in E|
      exists j, y; split; [exact Hj|]; split; [exact Hnl|]; split; [lra|]; intros k' y' Hk' Hlt';
      destruct (in_dec Z.eq_dec k' log) as [Hin|Hin]; [exact Hin|exfalso; apply E, Exists_exists; exists k';
        split; [apply in_zseq; pose proof (ex_range _ _ _ _ _ HX k' y' Hk'); lia|split; [|exact Hin]];
        unfold tlt; rewrite Hk', Hj; destruct (Rlt_dec y' y); [reflexivity|lra]]]);
      destruct E as [k [Hkr [Hkt Hkl]]]; apply in_zseq in Hkr;
      pose proof (rank_lt nn XE k j Hkr Hkt) as Hrk; [lia|].
    unfold tlt in Hkt. destruct (XE k) as [yk|] eqn:Ek; [|discriminate]. rewrite Hj in Hkt. destruct (Rlt_dec yk y) as [L|]; [|discriminate].
    destruct (IH k yk ltac:(lia) Ek Hkl) as [k2 [y2 [A1 [A2 [A3 A4]]]]]. exists k2, y2. repeat (split; [assumption|]). split; [lra|exact A4]. }
  intros Hi Hn. exact (Hall (rank nn XE i) i x (Nat.le_refl _) Hi Hn).
Qed.

Lemma pop_acc T q log m v : (kap <= 1)%R -> FHead T q log -> q m -> ~ In m log -> T m = Some v ->
  (forall k t, q k -> T k = Some t -> (v <= t)%R) ->
  (forall x, XE m = Some x -> (v <= (1 + kap) * x)%R).
Proof.
  intros Hk1 Hd Hqm Hml Hv Hmin x Hx. pose proof kap_pos as K0.
  destruct (in_dec Z.eq_dec m init) as [Hmi|Hmi].
  { rewrite (fs_src _ _ _ _ _ (fh_s _ _ _ Hd) m Hmi) in Hv. injection Hv as <-.
    pose proof (ex_nonneg _ _ _ _ _ HX m x Hx). apply Rmult_le_pos; lra. }
  destruct (least_exists log m x Hx Hml) as [k [y [Hk [Hkl [Hyx Hleast]]]]].
  pose proof (ex_nonneg _ _ _ _ _ HX k y Hk) as Hy0.
  assert (Hb : ((1 + kap) * y <= (1 + kap) * x)%R) by (apply Rmult_le_compat_l; lra).
  destruct (in_dec Z.eq_dec k init) as [Hki|Hki].
  - destruct (fh_src _ _ _ Hd k Hki) as [Hq|Hin]; [|contradiction].
    pose proof (Hmin k 0%R Hq (fs_src _ _ _ _ _ (fh_s _ _ _ Hd) k Hki)).
    assert (0 <= (1 + kap) * x)%R by (apply Rmult_le_pos; lra). lra.
  - destruct (least_out T q log k y Hk1 Hd Hk Hkl Hki Hleast) as [t [Ht Hle]].
    assert (Hne : T k <> None) by (rewrite Ht; discriminate).
    assert (Hqk : q k) by (apply (fh_t _ _ _ Hd k) in Hne; destruct Hne as [A|A]; [exact A|contradiction]).
    pose proof (Hmin k t Hqk Ht). lra.
Qed.

Lemma pop_inner T q log m v q' : FHead T q log -> q m -> ~ In m log -> T m = Some v ->
  (forall k t, q k -> T k = Some t -> (v <= t)%R) ->
  (forall k, q' k <-> q k /\ k <> m) -> FInner T q' m log [].
Proof.
  intros Hd Hqm Hml Hv Hmin Hq'. pose proof (fun K => pop_acc T q log m v K Hd Hqm Hml Hv Hmin) as Hacc.
  pose proof Hd as [S NE Ht Hsrc Hset Ha].
  assert (Hm2 : forall i, q i \/ In i log <-> q' i \/ In i (m :: log)).
  { intros i. rewrite Hq'. cbn. destruct (Z.eq_dec i m) as [->|Hne]; intuition congruence. }
  constructor; auto.
  - intros i. rewrite Ht. apply Hm2.
  - intros i Hi. apply Hm2. auto.
  - intros i Hi Hfi Hni Hnl [Hna|[]].
    apply (settled_ext (TF log T) _ T T i Hi eq_refl).
    + intros k Hk. unfold TF. destruct (Z.eq_dec k m) as [->|Hkm]; [exfalso; apply Hna, adjacent_sym, Hk|].
      destruct (in_dec Z.eq_dec k log) as [A|A], (in_dec Z.eq_dec k (m :: log)) as [B|B]; auto; exfalso.
      * apply B. right; exact A.
      * destruct B as [B|B]; [congruence|contradiction].
    + apply Hset; auto. intros K; apply Hnl; right; exact K.
  - intros Hk1 i x t [<-|Hin] Hx Hti; [|eauto]. assert (t = v) by congruence. subst t. auto.
  - intros i Hi Hfi Hai. destruct (in_dec Z.eq_dec m init) as [Hmi|Hmi]; [exfalso; exact (Hadj m i Hmi Hi Hai Hfi)|].
    destruct (Hsrc i Hi) as [Hqi|Hin]; [exfalso|right; exact Hin].
    pose proof (Hmin i 0%R Hqi (fs_src _ _ _ _ _ S i Hi)). destruct (fs_reached _ _ _ _ _ S m v Hv Hmi) as [A _]. lra.
Qed.

Lemma inner_head T q m log : 0 <= m < box_size dims -> FInner T q m log (nbrs dims m) -> FHead T q (m :: log).
Proof.
  intros Hm [S NE Ht Hsrc Hset Ha _]. constructor; auto.
  intros i Hi Hfi Hni Hnl. apply Hset; auto.
  destruct (in_dec Z.eq_dec i (nbrs dims m)) as [A|A]; [right; exact A|left].
  intros K. apply A, nbrs_spec; auto.
Qed.

Lemma inner_skip T q m log pre j : FInner T q m log pre -> In j (m :: log) \/ ~ fr j -> FInner T q m log (pre ++ [j]).
Proof.
  intros [S NE Ht Hsrc Hset Ha Hss] Hj. constructor; auto.
  intros i Hi Hfi Hni Hnl [A|A]; [apply Hset; auto|]. apply in_app_or in A. destruct A as [A|[<-|[]]]; [apply Hset; auto|].
  destruct Hj; contradiction.
Qed.

Lemma inner_keep T q m log pre j : FInner T q m log pre -> SET T T j -> FInner T q m log (pre ++ [j]).
Proof.
  intros [S NE Ht Hsrc Hset Ha Hss] Hj. constructor; auto.
  intros i Hi Hfi Hni Hnl [A|A]; [apply Hset; auto|]. apply in_app_or in A. destruct A as [A|[<-|[]]]; [apply Hset; auto|].
  eapply settled_weaken; [exact Hi| |exact Hj]. intros k s Hk. apply TF_some in Hk. tauto.
Qed.

Lemma inner_upd T q q' m log pre j u : FInner T q m log pre -> 0 <= j < box_size dims -> fr j -> ~ In j (m :: log) ->
  solves dims f fhi T j u -> fbetter u (T j) -> (forall i, q' i <-> q i \/ i = j) ->
  FInner (upd T j u) q' m log (pre ++ [j]).
Proof.
  intros [S NE Ht Hsrc Hset Ha Hss] Hjr Hfj Hnl Sv Hb Hq.
  destruct (fs_update dims init fr f Hp flo fhi Hflo Hfr T j u S Hfj Hjr Sv Hb) as [S' Hni].
  assert (Hother : forall i, In i (m :: log) -> upd T j u i = T i) by (intros i Hi; apply upd_other; intros ->; contradiction).
  constructor; auto.
  - apply (not_early_upd dims init fr f Hp flo fhi Hflo Hfr XE HX Xm HXm); auto.
  - intros i. rewrite Hq. destruct (Z.eq_dec i j) as [->|Hne].
    + rewrite upd_same. split; [auto|intros _; discriminate].
    + rewrite upd_other by exact Hne. rewrite Ht. split; [tauto|]. intros [[A|A]|A]; auto. contradiction.
  - intros i Hi. rewrite Hq. destruct (Hsrc i Hi); auto.
  - intros i Hi Hfi Hnii Hnli Hc. destruct (Z.eq_dec i j) as [->|Hne].
    + eapply settled_weaken; [exact Hi| |apply (fsettled_updated dims fr f Hp flo fhi Hflo Hfr T j u); auto].
      intros k s Hk. apply TF_some in Hk. tauto.
    + apply (settled_ext (TF (m :: log) T) _ T _ i Hi).
      * rewrite upd_other by exact Hne. reflexivity.
      * intros k _. unfold TF. destruct (in_dec Z.eq_dec k (m :: log)) as [A|A]; [rewrite Hother by exact A|]; reflexivity.
      * apply Hset; auto. destruct Hc as [A|A]; [auto|]. apply in_app_or in A. destruct A as [A|[A|[]]]; [auto|congruence].
  - intros Hk1 i x t Hin Hx Hti. rewrite Hother in Hti by exact Hin. eauto.
Qed.

Lemma inner_hs T q q' m log pre : (forall x, q' x <-> q x) -> FInner T q m log pre -> FInner T q' m log pre.
Proof.
  intros H [S NE Ht Hsrc Hset Ha Hss]. constructor; auto.
  - intros i. rewrite H. apply Ht.
  - intros i. rewrite H. apply Hsrc.
Qed.

(** ** the code *)
Record XS (g : grid F64) (h : heap HO) (log : list Z) : Prop := {
  xs_s : SInv HO HL dims init g h log;
  xs_frame : frame (fun i => In i init) g0 g;
  xs_tok : times_ok64 g;
  xs_h : forall i c, getCell g i = Ok c -> c_h c = n0;
  xs_ord : hord HL (key g) h
}.

Lemma fmm_heur_none g j : fmm_heur cfg g j = Ok g.
Proof. unfold fmm_heur. rewrite Hcfg. reflexivity. Qed.

(** adding the absent heuristic changes nothing *)
Lemma add0 (x : F64) o : (forall r, o = Some r -> Rabs r <= bpow radix2 900)%R -> toX x = ox o -> toX (nadd x (n0 : F64)) = ox o.
Proof.
  intros Hb H. destruct o as [r|]; cbn [ox] in *.
  - specialize (Hb r eq_refl). apply toX_Fin in H. apply Fin_toX.
    assert (E : rnd (r + 0) = r) by (rewrite Rplus_0_r; exact (Fin_rnd _ _ H)). rewrite <- E.
    apply Fin_plus; [exact H|exact Fz0|]. rewrite Rplus_0_r. eapply Rle_trans; [exact Hb|]. apply bpow_le. lia.
  - destruct x as [s|[]| |s m e B]; try discriminate H. reflexivity.
Qed.

Lemma time_bound T i t : FSup dims init fr fhi T -> (exists k, fr k) \/ T i = Some 0%R -> (1 <= nd)%R -> T i = Some t ->
  (Rabs t <= bpow radix2 900)%R.
Proof.
  intros S Hk Hn Ht. destruct Hk as [[k Hk]|Hk].
  - pose proof (fs_bound dims init fr fhi T i t S Hfh Ht) as Hb.
    destruct (B_top dims g0 Hrg flo fhi Hflo Hfr Hsmall k Hk Hn) as [_ Htop].
    pose proof (Hfr k Hk). rewrite Rabs_pos_eq by lra. apply Rle_trans with tmax; [lra|]. unfold tmax. apply bpow_le. lia.
  - rewrite Hk in Ht. injection Ht as <-. rewrite Rabs_R0. apply bpow_ge_0.
Qed.

Lemma sup_bound T i t : FSup dims init fr fhi T -> T i = Some t -> (Rabs t <= bpow radix2 900)%R.
Proof.
  intros S Ht. destruct (in_dec Z.eq_dec i init) as [Hi|Hi].
  - rewrite (fs_src _ _ _ _ _ S i Hi) in Ht. injection Ht as <-. rewrite Rabs_R0. apply bpow_ge_0.
  - destruct (fs_reached _ _ _ _ _ S i t Ht Hi) as [_ [Hfi [k [s [Ha _]]]]].
    apply (time_bound T i t S); [left; eauto| |exact Ht].
    destruct dims as [|d ds] eqn:E.
    + exfalso. destruct (adjacent_adjacent_in _ _ _ Ha) as [d [Hd _]]. cbn in Hd. lia.
    + cbn [length]. rewrite S_INR. pose proof (pos_INR (length ds)). lra.
Qed.

Lemma key_toX g h log i : XS g h log -> FSup dims init fr fhi (times64 g) -> 0 <= i < box_size dims ->
  toX (key g i) = ox (times64 g i).
Proof.
  intros X S Hi. unfold key, getTotalValue.
  destruct (getCell_in dims g i (si_grid _ _ _ _ _ _ _ (xs_s _ _ _ X)) Hi) as [c Hc]. rewrite Hc, (xs_h _ _ _ X i c Hc).
  apply add0; [intros r Hr; eapply sup_bound; eauto|]. apply times64_val; [apply (xs_tok _ _ _ X)|exact Hc].
Qed.

Lemma toX_nonan (x : F64) o : toX x = ox o -> nisnan x = false.
Proof. destruct x as [s|[]| |s m e B], o; cbn; intros H; try reflexivity; discriminate. Qed.

Notation INN m log pre g h := (FInner (times64 g) (fun x => In x (helems HO h)) m log pre).

Lemma heap_range g h log x : SInv HO HL dims init g h log -> In x (helems HO h) -> 0 <= x < box_size dims.
Proof. intros S Hx. apply (si_rng _ _ _ _ _ _ _ S), in_or_app; auto. Qed.

Lemma heap_nodup g h log : SInv HO HL dims init g h log -> NoDup (helems HO h).
Proof.
  intros S. pose proof (si_nd _ _ _ _ _ _ _ S) as Ind. induction (helems HO h); [constructor|].
  inversion Ind; subst. constructor; [|auto]. intros H; apply H1, in_or_app; auto.
Qed.

Lemma neighbor_F m log pre st j :
  XS (fs_g st) (fs_h st) (m :: log) -> INN m log pre (fs_g st) (fs_h st) -> adjacent dims m j ->
  exists st', fmm_neighbor HO cfg st j = Ok st' /\ XS (fs_g st') (fs_h st') (m :: log) /\
    INN m log (pre ++ [j]) (fs_g st') (fs_h st').
Proof.
  intros X I Ha. pose proof X as [S F Tok Hh Ord].
  pose proof (adjacent_range _ _ _ Ha) as [Hmr Hjr].
  assert (Hside : free (fs_g st) j -> In j init -> In j (m :: log)).
  { intros Hfree Hj. apply (fi_srcs _ _ _ _ _ I); auto. apply (frame_free_inv _ _ _ _ F), Hfree. }
  destruct (fmm_neighbor_ok F64_laws HO HL dims Hd2 Hlt cfg init Hheur st j (m :: log) S Hjr Hside) as [st' [Hst' S']].
  exists st'. split; [exact Hst'|].
  pose proof (fmm_neighbor_frame (fun i => In i init) HO cfg _ _ _ Hst') as F'.
  pose proof S as [Ig Iw Ind Ir Is If In_].
  unfold fmm_neighbor in Hst'. destruct (getCell_in dims (fs_g st) j Ig Hjr) as [c Hc]. rewrite Hc in Hst'. cbn [bind] in Hst'.
  destruct (fmstate_eqb (c_state c) FROZEN) eqn:EF; cbn [orb] in Hst'.
  { injection Hst' as <-. split; [exact X|]. apply inner_skip; [exact I|left]. apply (If j c Hc). apply eqb_state, EF. }
  destruct (isOccupied c) eqn:EO.
  { injection Hst' as <-. split; [exact X|]. apply inner_skip; [exact I|right]. intros H.
    apply (frame_free _ _ _ _ F) in H. destruct H as [c' [Hc' H]]. assert (c' = c) by congruence. congruence. }
  apply eqb_state_false in EF.
  assert (Hfj : fr j) by (apply (frame_free_inv _ _ _ _ F); exists c; auto).
  assert (Hnl : ~ In j (m :: log)) by (intros H; apply EF, (If j c Hc), H).
  assert (Hji : ~ In j init) by (intros H; apply Hnl, Hside; [exists c; auto|exact H]).
  pose proof (fi_s _ _ _ _ _ I) as Sup.
  destruct (solve_F dims Hd2 Hlt init g0 Hrg flo fhi Hflo Hfr Hsmall (fs_g st) j c _ F Hg0 Tok Sup Hjr Hc EO) as [u [Hu Hcase]].
  rewrite Hu in Hst'. cbn [bind] in Hst'.
  rewrite fmm_heur_none in Hst'. cbn [bind] in Hst'. rewrite Hc in Hst'. cbn [bind] in Hst'.
  set (T := times64 (fs_g st)) in *.
  destruct (fmstate_eqb (c_state c) NARROW) eqn:EN.
  - apply eqb_state in EN.
    assert (Hin : In j (helems HO (fs_h st))) by (apply (In_ j c Hc), EN).
    destruct (isTimeBetterThan u (c_val c)) eqn:EB.
    + destruct Hcase as [[-> _]|[r [Fu [Bu Sv]]]]; [rewrite inf_not_better64 in EB; discriminate|].
      apply (better_val (fs_g st) j c u r Fu Bu Tok Hc) in EB. fold T in EB.
      apply bind_ok in Hst'; destruct Hst' as [g2 [Hg2 Hst']]. apply bind_ok in Hst'; destruct Hst' as [h2 [Hh2 Hst']]. injection Hst' as <-. cbn [fs_g fs_h] in *.
      destruct (hl_incr HO HL (key g2) j (fs_h st) Iw Hin) as [h2' [Hh2' [Hw2 Hpm]]].
      assert (h2' = h2) by congruence. subst h2'.
      assert (ET : times64 g2 = upd T j r) by (eapply times64_set; eauto).
      assert (I' : INN m log (pre ++ [j]) g2 h2).
      { rewrite ET. apply (inner_upd T (fun x => In x (helems HO (fs_h st)))); auto.
        intros x. split; [intros Hx; left; eapply Permutation_in; eauto|].
        intros [Hx| ->]; eapply Permutation_in; try (symmetry; exact Hpm); auto. }
      assert (Hcell : forall i c', getCell g2 i = Ok c' -> c_h c' = n0).
      { intros i c' Hc'. rewrite (updCell_get _ _ _ _ i Hg2) in Hc'. destruct (j =? i).
        + destruct (getCell (fs_g st) i) as [c2|] eqn:E2; [|discriminate]. injection Hc' as <-. exact (Hh i c2 E2).
        + eauto. }
      split; [|exact I'].
      assert (Hr0 : (0 <= r)%R) by (destruct (sv_rng _ _ _ _ _ _ Sv); lra).
      constructor; auto.
      * eapply frame_trans; eauto.
      * eapply set_times_ok64; eauto.
      * eapply (hl_ord_incr HO HL (key (fs_g st)) (key g2) j (fs_h st) h2); auto.
        -- eapply heap_nodup; eauto.
        -- intros x _ Hx. unfold key. rewrite (updCell_get _ _ _ _ x Hg2). destruct (Z.eqb_spec j x); [congruence|reflexivity].
        -- rewrite lt_toX, (key_toX _ _ _ j X Sup Hjr). fold T.
           assert (Ek : toX (key g2 j) = XFin r).
           { unfold key. rewrite (updCell_get _ _ _ _ j Hg2), Z.eqb_refl, Hc. unfold getTotalValue. cbn [with_val c_val c_h].
             rewrite (Hh j c Hc). apply (add0 u (Some r)); [intros r' E; injection E as <-; exact Bu|exact (Fin_toX _ _ Fu)]. }
           rewrite Ek. destruct (T j) as [t|] eqn:Et; cbn [ox]; [|reflexivity]. cbn. apply Rltb_false.
           pose proof (fbetter_lt r t (Fin_rnd _ _ Fu) EB). lra.
        -- intros x Hx. exact (toX_nonan _ _ (key_toX _ _ _ x X Sup (heap_range _ _ _ x S Hx))).
    + injection Hst' as <-. cbn [fs_g fs_h] in *. split; [constructor; auto|].
      apply inner_keep; [exact I|]. apply (fsettled_not_better dims init fr f Hp flo fhi Hflo Hfr Hsmall); auto.
      destruct Hcase as [[_ E]|[r [Fu [Bu Sv]]]]; [left; exact E|right]. exists r. split; [exact Sv|].
      intros Hb. apply (better_val (fs_g st) j c u r Fu Bu Tok Hc) in Hb. congruence.
  - apply eqb_state_false in EN.
    assert (Hnin : ~ In j (helems HO (fs_h st))) by (intros H; apply EN, (In_ j c Hc); auto).
    assert (HTj : T j = None).
    { destruct (T j) as [t|] eqn:E; [exfalso|reflexivity]. assert (K : T j <> None) by congruence.
      apply (fi_t _ _ _ _ _ I) in K. destruct K; contradiction. }
    assert (HTm : T m <> None) by (apply (fi_t _ _ _ _ _ I); right; left; reflexivity).
    destruct Hcase as [[_ E]|[r [Fu [Bu Sv]]]].
    { exfalso. apply HTm. rewrite HTj in E. cbn [upw] in E. eapply (somes_dmins_empty dims Hp T j m Hjr E). apply adjacent_sym, Ha. }
    apply bind_ok in Hst'; destruct Hst' as [g2 [Hg2 Hst']]. apply bind_ok in Hst'; destruct Hst' as [g3 [Hg3 Hst']]. injection Hst' as <-. cbn [fs_g fs_h] in *.
    destruct (hl_push HO HL (key g3) j (fs_h st) Iw Hnin) as [Hw3 Hpm].
    assert (Hr0 : (0 <= r)%R) by (destruct (sv_rng _ _ _ _ _ _ Sv); lra).
    assert (ET : times64 g3 = upd T j r).
    { rewrite (times64_set _ _ _ _ _ Hg3 Fu). f_equal. eapply times64_upd_keep; [exact Hg2|reflexivity]. }
    split.
    + constructor; auto.
      * eapply frame_trans; eauto.
      * eapply set_times_ok64; [exact Hg3|exact Fu|exact Hr0|]. eapply upd_times_ok64; eauto.
      * intros i c' Hc'. rewrite (updCell_get _ _ _ _ i Hg3), (updCell_get _ _ _ _ i Hg2) in Hc'. destruct (j =? i) eqn:Eji.
        -- destruct (getCell (fs_g st) i) as [c2|] eqn:E2; [|discriminate]. injection Hc' as <-. exact (Hh i c2 E2).
        -- eauto.
      * apply (hl_ord_push HO HL); [exact Iw|exact Hnin|].
        eapply (hl_ord_ext HO HL (key (fs_g st))); [exact Iw|exact Ord|].
        intros x Hx. unfold key. rewrite (updCell_get _ _ _ _ x Hg3), (updCell_get _ _ _ _ x Hg2).
        destruct (Z.eqb_spec j x) as [<-|Hne']; [contradiction|reflexivity].
    + rewrite ET. apply (inner_upd T (fun x => In x (helems HO (fs_h st)))); auto; [rewrite HTj; exact Logic.I|].
      intros x. split; intros H.
      * eapply Permutation_in in H; [|exact Hpm]. destruct H; auto.
      * eapply Permutation_in; [symmetry; exact Hpm|]. destruct H; [right|left]; auto.
Qed.

Notation HEAD g h log := (FHead (times64 g) (fun x => In x (helems HO h)) log).

Lemma step_F st log :
  XS (fs_g st) (fs_h st) log -> HEAD (fs_g st) (fs_h st) log ->
  (helems HO (fs_h st) = [] /\ fmm_step HO cfg st = Ok None) \/
  exists m st', fmm_step HO cfg st = Ok (Some (m, st')) /\
    XS (fs_g st') (fs_h st') (m :: log) /\ HEAD (fs_g st') (fs_h st') (m :: log).
Proof.
  intros X Hd. pose proof X as [S F Tok Hh Ord]. unfold fmm_step.
  destruct (hpop HO (key (fs_g st)) (fs_h st)) as [[m h1]|] eqn:Hpop.
  2:{ left. split; [|reflexivity]. apply (hl_pop_none HO HL) in Hpop; [exact Hpop|apply S]. }
  right. exists m. pose proof S as [Ig Iw Ind Ir Is If In_].
  destruct (hl_pop HO HL _ _ _ _ Iw Hpop) as [_ Hpm].
  assert (Hmin : In m (helems HO (fs_h st))).
  { eapply Permutation_in; [symmetry; exact Hpm|left; reflexivity]. }
  assert (Hm : 0 <= m < box_size dims) by (apply Ir, in_or_app; left; exact Hmin).
  assert (Hml : ~ In m log).
  { intros K. apply in_split in Hmin. destruct Hmin as [l1 [l2 E]]. rewrite E in Ind.
    rewrite <- app_assoc in Ind. cbn in Ind. apply NoDup_remove_2 in Ind. apply Ind. rewrite !in_app_iff. auto. }
  pose proof Ig as [Hsh _]. rewrite Hsh, getNeighbors_eq by assumption. cbn [bind].
  destruct (getCell_in dims (fs_g st) m Ig Hm) as [c Hc].
  destruct (updCell_in (fs_g st) m c (fun c => with_state c FROZEN) Hc) as [g1 Hg1].
  change (updCell (fs_g st) m (fun c => with_state c FROZEN)) with (setState (fs_g st) m FROZEN) in Hg1.
  rewrite Hg1. cbn [bind]. pose proof (SInv_pop HO HL dims init _ _ _ _ _ _ S Hpop Hg1) as S1.
  pose proof (fh_s _ _ _ Hd) as Sup.
  destruct (times64 (fs_g st) m) as [v|] eqn:Hv.
  2:{ exfalso. apply (proj2 (fh_t _ _ _ Hd m) (or_introl Hmin)), Hv. }
  destruct (hl_ord_pop HO HL _ _ _ _ Iw Ord Hpop) as [Ord1 Hmn].
  { intros x Hx. exact (toX_nonan _ _ (key_toX _ _ _ x X Sup (heap_range _ _ _ x S Hx))). }
  assert (Hcell1 : forall i, getCell g1 i = if m =? i then match getCell (fs_g st) i with Ok c => Ok (with_state c FROZEN) | Fail e => Fail e end else getCell (fs_g st) i).
  { intros i. apply (updCell_get _ _ _ _ i Hg1). }
  assert (X1 : XS g1 h1 (m :: log)).
  { constructor; auto.
    - eapply frame_trans; [exact F|]. eapply setState_frame; exact Hg1.
    - eapply upd_times_ok64; eauto.
    - intros i c' Hc'. rewrite Hcell1 in Hc'. destruct (m =? i).
      + destruct (getCell (fs_g st) i) as [c2|] eqn:E2; [|discriminate]. injection Hc' as <-. exact (Hh i c2 E2).
      + eauto.
    - eapply (hl_ord_ext HO HL (key (fs_g st))); [apply S1|exact Ord1|].
      intros x _. unfold key. rewrite Hcell1. destruct (m =? x); [|reflexivity].
      destruct (getCell (fs_g st) x); reflexivity. }
  assert (ET : times64 g1 = times64 (fs_g st)) by (eapply times64_upd_keep; [exact Hg1|reflexivity]).
  assert (NDm : NoDup (m :: helems HO h1)).
  { eapply Permutation_NoDup; [exact Hpm|]. eapply heap_nodup; eauto. }
  assert (I0 : INN m log [] g1 h1).
  { rewrite ET. eapply (pop_inner _ (fun x => In x (helems HO (fs_h st)))); eauto.
    - intros x t Hx Ht. specialize (Hmn x Hx). rewrite lt_toX, (key_toX _ _ _ x X Sup (heap_range _ _ _ x S Hx)), (key_toX _ _ _ m X Sup Hm), Ht, Hv in Hmn.
      cbn in Hmn. apply Rltb_false in Hmn. exact Hmn.
    - intros x. inversion NDm; subst. split.
      + intros Hx. split; [|intros ->; contradiction]. eapply Permutation_in; [symmetry; exact Hpm|right; exact Hx].
      + intros [Hx Hne]. eapply Permutation_in in Hx; [|exact Hpm]. destruct Hx as [Hx|Hx]; [congruence|exact Hx]. }
  destruct (foldM_seq (fun pre s => XS (fs_g s) (fs_h s) (m :: log) /\ INN m log pre (fs_g s) (fs_h s))
              (fmm_neighbor HO cfg) (nbrs dims m) (mkFst g1 h1)) as [st' [Hfold [X' I']]].
  - split; [exact X1|exact I0].
  - intros pre x post s E [Xs Is']. apply neighbor_F; auto.
    apply nbrs_spec; auto. rewrite E. apply in_or_app; right; left; reflexivity.
  - exists st'. rewrite Hfold. cbn [bind]. split; [reflexivity|]. split; [exact X'|].
    eapply inner_head; eauto.
Qed.

Lemma init_F : exists st, foldM (fmm_init1 HO cfg) init (mkFst g0 (hempty HO)) = Ok st /\
  XS (fs_g st) (fs_h st) [] /\ HEAD (fs_g st) (fs_h st) [].
Proof.
  destruct (fmm_init_ok HO HL dims cfg init Hheur g0 Hg0 Hnd Hrng) as [st [H1 [H2 H3]]].
  { intros i c Hc. apply (Hfresh i c Hc). }
  exists st. split; [exact H1|].
  destruct (foldM_seq (fun pre s => frame (fun i => In i init) g0 (fs_g s) /\ grid_ok dims (fs_g s) /\
      hwf HL (fs_h s) /\ Permutation (helems HO (fs_h s)) pre /\ hord HL (key (fs_g s)) (fs_h s) /\
      (forall i c, getCell (fs_g s) i = Ok c -> c_h c = n0 /\
          c_val c = (if in_dec Z.eq_dec i pre then n0 else ninf)))
    (fmm_init1 HO cfg) init (mkFst g0 (hempty HO))) as [st2 [G1 [G2 [G3 [G4 [G5 [G6 G7]]]]]]].
  - cbn [fs_g fs_h]. split; [apply frame_refl|]. split; [exact Hg0|]. destruct (hl_empty HO HL) as [E1 E2].
    split; [exact E1|]. split; [rewrite E2; constructor|]. split; [apply hl_ord_empty|].
    intros i c Hc. destruct (Hfresh i c Hc) as [A [_ A3]]. split; [exact A3|exact A].
  - intros pre i post s E [A1 [A2 [A3 [A4 [A5 A6]]]]].
    assert (Hii : In i init) by (rewrite E; apply in_or_app; right; left; reflexivity).
    pose proof (Hrng i Hii) as Hi.
    assert (Hnpre : ~ In i pre).
    { pose proof Hnd as ND. rewrite E in ND. apply NoDup_remove_2 in ND. intros H; apply ND, in_or_app; auto. }
    unfold fmm_init1. destruct (getCell_in dims (fs_g s) i A2 Hi) as [c Hc].
    destruct (updCell_in (fs_g s) i c (fun c => with_val c n0) Hc) as [g1 Hg1].
    change (updCell (fs_g s) i (fun c => with_val c n0)) with (setArrivalTime (fs_g s) i n0) in Hg1.
    rewrite Hg1. cbn [bind]. rewrite fmm_heur_none. cbn [bind]. eexists. split; [reflexivity|]. cbn [fs_g fs_h].
    split; [eapply frame_trans; [exact A1|]; eapply setArrivalTime_frame; [exact Hg1|left; exact Hii]|].
    split; [exact (updCell_grid_ok _ _ _ _ _ Hg1 A2)|].
    assert (Hni : ~ In i (helems HO (fs_h s))) by (intros K; apply Hnpre; eapply Permutation_in; eauto).
    destruct (hl_push HO HL (key g1) i (fs_h s) A3 Hni) as [B2 Hpm]. split; [exact B2|].
    split; [rewrite Hpm, A4; apply Permutation_cons_append|]. split.
    + apply (hl_ord_push HO HL); [exact A3|exact Hni|]. eapply (hl_ord_ext HO HL (key (fs_g s))); [exact A3|exact A5|].
      intros x Hx. unfold key. rewrite (updCell_get _ _ _ _ x Hg1). destruct (Z.eqb_spec i x) as [<-|Hne]; [|reflexivity].
      exfalso. apply Hnpre. eapply Permutation_in; eauto.
    + intros k c' Hc'. rewrite (updCell_get _ _ _ _ k Hg1) in Hc'. destruct (Z.eqb_spec i k) as [<-|Hne].
      * rewrite Hc in Hc'. injection Hc' as <-. cbn [c_h c_val with_val]. split; [apply (A6 i c Hc)|].
        destruct (in_dec Z.eq_dec i (pre ++ [i])) as [_|H]; [reflexivity|exfalso; apply H, in_or_app; right; left; reflexivity].
      * destruct (A6 k c' Hc') as [B1 B3]. split; [exact B1|]. rewrite B3.
        destruct (in_dec Z.eq_dec k pre) as [C1|C1], (in_dec Z.eq_dec k (pre ++ [i])) as [C2|C2]; auto; exfalso.
        -- apply C2, in_or_app; auto.
        -- apply in_app_or in C2. destruct C2 as [C2|[C2|[]]]; congruence.
  - assert (st2 = st) by congruence. subst st2.
    assert (HT : forall i, times64 (fs_g st) i = if in_dec Z.eq_dec i init then Some 0%R else None).
    { intros i. unfold times64, getArrivalTime. destruct (getCell (fs_g st) i) as [c|] eqn:Hc; cbn [bind].
      - destruct (G7 i c Hc) as [_ ->]. destruct (in_dec Z.eq_dec i init); reflexivity.
      - destruct (in_dec Z.eq_dec i init) as [Hi|]; [exfalso|reflexivity].
        destruct (getCell_in dims (fs_g st) i G3 (Hrng i Hi)) as [c Hc']. congruence. }
    split.
    + constructor; auto.
      * intros i c Hc. destruct (G7 i c Hc) as [_ ->]. destruct (in_dec Z.eq_dec i init); [right; exists 0%R; split; [reflexivity|lra]|left; reflexivity].
      * intros i c Hc. apply (G7 i c Hc).
    + assert (Hh : forall i, In i (helems HO (fs_h st)) <-> In i init).
      { intros i. split; apply Permutation_in; [exact H3|symmetry; exact H3]. }
      constructor.
      * apply (fs_start dims init fr fhi); auto.
      * eapply not_early_start; eauto.
      * intros i. rewrite Hh, HT. destruct (in_dec Z.eq_dec i init); cbn; split; try tauto; congruence.
      * intros i Hi. left. apply Hh, Hi.
      * intros i Hi Hfi Hni _. unfold settled_by. rewrite HT. destruct (in_dec Z.eq_dec i init); [contradiction|].
        intros j _. reflexivity.
      * intros _ i x t [].
Qed.

Lemma loop_F goal : forall fuel st log,
  XS (fs_g st) (fs_h st) log -> HEAD (fs_g st) (fs_h st) log ->
  (Z.to_nat (box_size dims) < fuel + length log)%nat ->
  exists st' log', fmm_loop HO fuel cfg goal st log = Ok (st', log') /\
    XS (fs_g st') (fs_h st') log' /\ HEAD (fs_g st') (fs_h st') log' /\
    (helems HO (fs_h st') = [] \/ exists r, log' = goal :: r).
Proof.
  induction fuel as [|k IH]; intros st log X Hd Hfuel.
  { pose proof (log_bound HO HL dims init _ _ _ (xs_s _ _ _ X)). lia. }
  cbn [fmm_loop]. destruct (step_F st log X Hd) as [[He Hs]|[m [st' [Hs [X' Hd']]]]]; rewrite Hs; cbn [bind].
  - exists st, log. auto.
  - destruct (Z.eqb_spec m goal) as [->|Hne].
    + exists st', (goal :: log). repeat (split; [assumption || reflexivity|]). right; eauto.
    + apply IH; auto. cbn [length]. lia.
Qed.

Theorem run_F goal fuel : (Z.to_nat (box_size dims) < fuel)%nat ->
  exists st log, fmm_run HO fuel cfg goal init g0 (hempty HO) = Ok (st, log) /\
    XS (fs_g st) (fs_h st) log /\ HEAD (fs_g st) (fs_h st) log /\
    (helems HO (fs_h st) = [] \/ exists r, log = goal :: r).
Proof.
  intros Hfuel. destruct init_F as [st [H1 [H2 H3]]]. unfold fmm_run. rewrite H1. cbn [bind].
  apply loop_F; auto. cbn; lia.
Qed.

(** when the narrow band is empty every cell with an exact time is in the log *)
Lemma done_all T log : (kap <= 1)%R -> FHead T (fun _ => False) log -> forall i x, XE i = Some x -> In i log.
Proof.
  intros Hk1 Hd i x Hx. destruct (in_dec Z.eq_dec i log) as [Hi|Hi]; [exact Hi|exfalso].
  destruct (least_exists log i x Hx Hi) as [k [y [Hk [Hkl [_ Hleast]]]]].
  assert (Hki : ~ In k init) by (intros K; destruct (fh_src _ _ _ Hd k K); auto).
  destruct (least_out T _ log k y Hk1 Hd Hk Hkl Hki Hleast) as [t [Ht _]].
  assert (K : T k <> None) by congruence. apply (fh_t _ _ _ Hd k) in K. destruct K; auto.
Qed.
End FF.

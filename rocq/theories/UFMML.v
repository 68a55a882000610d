(** UFMML.v - UFMM (ufmm.hpp) in exact arithmetic on maps with cells slower than the span of its
    queue: it finishes without undefined behaviour as long as no time can overflow the bucket
    number (proofs for C93). *)
From Coq Require Import Reals Lra Permutation.
From Verif Require Import Base BaseFacts Num NumXR NumLaws Grid GridFacts GridUpd GridMore Spec Obs Eikonal
  FMMModel FMMStruct UntidyModel UntidySpec Untidy Frame Evolve Lifecycle EikR Solution XGrid FMMAbs FMMX Relax Exact Bound
  UFMMStruct UntidyX UntidyL UFMMX.
Open Scope Z_scope.

Section UL.
Variable dims : list Z.
Hypothesis Hd2 : dims2 dims.
Hypothesis Hlt : 2 * box_size dims <= 4294967296.
Variable init : list Z.
Hypothesis Hnd : NoDup init.
Hypothesis Hrng : forall i, In i init -> 0 <= i < box_size dims.
Variable g0 : grid XR.
Hypothesis Hg0 : grid_ok dims g0.
Hypothesis Hreal : reals_ok g0.
Hypothesis Hfresh : forall i c, getCell g0 i = Ok c -> c_val c = XPInf.
Hypothesis Hopen : forall i c, getCell g0 i = Ok c -> c_state c = OPEN.
Hypothesis Hsep : separated dims g0 init.
Variable X : time_map.
Hypothesis HX : exact_solution dims (fun i => In i init) (free g0) (slow g0) X.
Variables (size : Z) (inc : R).
Hypothesis Hsize : 0 < size.
Hypothesis Hsize2 : 2 * size <= 4294967296.
Hypothesis Hinc : (0 < inc)%R.
Let dl : R := (inc / IZR size)%R.
(** no cell takes longer to cross than [F], and even a path through all the cells stays representable *)
Variable F : R.
Hypothesis HF0 : (0 <= F)%R.
Hypothesis Hslow : forall i, free g0 i -> (slow g0 i <= F)%R.
Hypothesis Hfit : (F * IZR (box_size dims) * IZR size / inc < 4294967296)%R.

Let Hp : proper dims := dims2_proper' dims Hd2.
Notation fr := (free g0).
Notation f := (slow g0).
Let Hf : forall i, fr i -> (0 < f i)%R.
Proof. intros i Hi. apply slow_pos; assumption. Qed.
Notation rng i := (0 <= i < box_size dims).
Notation QLX := (QL size inc).
Notation MIX g q log rem cur := (MI (N := XR) dims init g0 g q log rem cur).
Notation US T i := (upwind_sum (somes (dmins dims T i))).

Let Hdl : (0 < dl)%R := delta_pos size inc Hsize Hinc.

Notation snap := (snap dims g0).

(** the state of the computation *)
Record AL (g : grid XR) (q : uq (N := XR)) (t0 : R) (log : list Z) (Bd : R) (seen : Z -> Z -> Prop) : Prop := {
  al_q : QLX (times g) q t0;
  al_pos : (0 <= t0)%R;
  al_dom : forall x r, times g x = Some r -> In x (bag q) \/ In x log;
  al_src : forall x, In x init -> times g x = Some 0%R;
  al_nar : forall j, cst g j = Some NARROW -> exists r, times g j = Some r /\ snap (times g) (seen j) j r;
  al_log : forall j, In j log -> times g j <> None;
  al_bd : forall x r, times g x = Some r -> (r <= Bd)%R
}.
Definition cur_ok (g : grid XR) (t0 : R) (Bd : R) (m : Z) : Prop :=
  exists r, times g m = Some r /\ (t0 <= r)%R /\ (r + F <= Bd)%R.

Definition seen1 (log : list Z) (m : Z) (done : list Z) (j k : Z) : Prop := In k log \/ (k = m /\ In j done).

Lemma ev_ok g : ev init g0 g -> times_ok g /\ grid_ok dims g /\ reals_ok g /\ (forall i, slow g i = f i) /\ frame (fun i => In i init) g0 g.
Proof.
  intros He. pose proof (ev_frame _ _ _ He) as HF. destruct (ev_above dims init Hd2 Hlt X g0 g Hg0 Hreal HX Hfresh He) as [A _].
  split; [exact A|]. split; [eapply frame_grid_ok; eauto|]. split; [eapply frame_reals; eauto|]. split; [eapply frame_slow; eauto|exact HF].
Qed.

(** times of queued cells *)
Lemma queued_time g q t0 log Bd seen x : AL g q t0 log Bd seen -> In x (bag q) -> exists r, times g x = Some r /\ (t0 <= r)%R.
Proof.
  intros A Hx. pose proof (al_q _ _ _ _ _ _ A) as Q. pose proof (ql_ui _ _ _ _ _ Q) as U. pose proof (ql_size _ _ _ _ _ Q) as Es. pose proof (ui_len _ U) as Hlen.
  unfold bag in Hx. apply in_concat in Hx. destruct Hx as [bb [Hbb Hyb]]. apply In_nth with (d := []) in Hbb. destruct Hbb as [n [Hn Hnb]].
  destruct (ql_slot _ _ _ _ _ Q x (Z.of_nat n)) as [r [L1 L2]]; [lia|unfold bucket; rewrite Nat2Z.id, Hnb; exact Hyb|].
  exists r. split; [exact L1|]. unfold in_low in L2. fold dl in L2. pose proof (Z.mod_pos_bound (Z.of_nat n - uq_i0 q) size Hsize) as Hm.
  assert (0 <= IZR ((Z.of_nat n - uq_i0 q) mod size))%R by (apply IZR_le; lia). nra.
Qed.

(** the bucket number of every time that can occur fits *)
Lemma fits t0 t Bd : (0 <= t0)%R -> (t0 <= t)%R -> (t <= Bd)%R -> (Bd <= F * IZR (box_size dims))%R -> castable size inc t0 t.
Proof.
  intros H0 H1 H2 H3. split; [exact H1|]. eapply Rle_lt_trans; [|exact Hfit].
  assert (0 < / inc)%R by (apply Rinv_0_lt_compat, Hinc). assert (0 < IZR size)%R by (apply IZR_lt, Hsize).
  unfold Rdiv. apply Rmult_le_compat_r; [lra|]. apply Rmult_le_compat_r; lra.
Qed.

(** the evaluation of a neighbour of the cell in hand *)
Lemma eval_range g q t0 log Bd rem m done j c : MIX g q log rem [m] -> AL g q t0 log Bd (seen1 log m done) -> cur_ok g t0 Bd m ->
  adjacent dims m j -> ~ In j done -> getCell g j = Ok c -> c_state c <> FROZEN -> fr j ->
  let T := times g in
  match T j with
  | None => exists t, eik dims (f j) T j = Some t /\ (t0 <= t <= Bd)%R
  | Some r => forall t, eik dims (f j) T j = Some t -> (t + M < r)%R -> (t0 <= t <= Bd)%R
  end.
Proof.
  intros I A [rm [Em [Hrm HrK]]] Ha Hdone Hc Hst Hfj T. pose proof (adjacent_range _ _ _ Ha) as [Hmr Hjr]. pose proof Rmargin_pos as HM.
  pose proof (Hf j Hfj) as Hfp. pose proof (Hslow j Hfj) as Hsp.
  assert (Hfin : ~ In j log /\ j <> m).
  { assert (K : ~ In j ([m] ++ log)). { intros K. apply (mi_fr _ _ _ _ _ _ _ _ I) in K. rewrite (cst_get _ _ _ Hc) in K. congruence. }
    split; [intros K1; apply K; right; exact K1|intros ->; apply K; left; reflexivity]. }
  destruct Hfin as [Hnl Hjm].
  (* reached neighbours that are not accepted yet are not before t0 *)
  assert (Hge : forall k s, T k = Some s -> ~ In k log -> (t0 <= s)%R).
  { intros k s Hk Hkl. destruct (al_dom _ _ _ _ _ _ A k s Hk) as [K|K]; [|contradiction].
    destruct (queued_time _ _ _ _ _ _ k A K) as [s' [S1 S2]]. fold T in S1. assert (s' = s) by congruence. lra. }
  destruct (T j) as [r|] eqn:Er.
  - intros t He Hb.
    assert (Hjb : In j (bag q)) by (destruct (al_dom _ _ _ _ _ _ A j r Er) as [K|K]; [exact K|contradiction]).
    destruct (queued_time _ _ _ _ _ _ j A Hjb) as [r' [S1 S2]]. fold T in S1. assert (r' = r) by congruence. subst r'.
    split; [|pose proof (al_bd _ _ _ _ _ _ A j r Er); lra]. destruct (Rle_dec t0 t) as [L|L]; [exact L|exfalso].
    destruct (eik_some _ _ _ _ _ He) as [Hne Hu]. rewrite Er in Hne, Hu. cbn [upw] in Hne, Hu.
    destruct (RF_below (f j) M t0 _ Hfp HM Hne ltac:(rewrite <- Hu; lra)) as [Nb Eb]. rewrite below_below in Nb, Eb by lra. rewrite <- Hu in Eb.
    assert (Enar : cst g j = Some NARROW).
    { apply (mi_bag _ _ _ _ _ _ _ _ I) in Hjb. destruct Hjb as [K|K]; [exact K|]. exfalso. apply in_app_or in K. destruct K as [K|[K|[]]]; [|congruence].
      destruct (mi_rem _ _ _ _ _ _ _ _ I j K) as [K1 _]. unfold T in S1. rewrite (al_src _ _ _ _ _ _ A j K1) in S1. injection S1 as <-.
      destruct (RF_bounds (f j) M _ Hfp HM Hne) as [_ [_ [a [Ha1 Ha2]]]]. apply in_below in Ha1. destruct Ha1 as [Ha1 Ha3].
      destruct (in_somes_dmins dims Hp T j a Hjr Ha1) as [k [_ Hk]]. destruct (ev_ok g (mi_ev _ _ _ _ _ _ _ _ I)) as [Tok _]. pose proof (times_nonneg _ _ _ Tok Hk). lra. }
    destruct (al_nar _ _ _ _ _ _ A j Enar) as [r2 [E2 [S [own [P1 [P2 [P3 P4]]]]]]]. fold T in E2, P1, P2. assert (r2 = r) by congruence. subst r2.
    assert (Ebd : below t0 (somes (dmins dims T j)) = below t0 (somes (dmins dims S j))).
    { apply below_dmins_eq; auto. intros k s Hk Hs. split; intros K.
      - assert (Hkl : In k log). { destruct (in_dec Z.eq_dec k log) as [Y|Y]; [exact Y|]. pose proof (Hge k s K Y). lra. }
        rewrite (P1 k Hk (or_introl Hkl)). exact K.
      - destruct (P2 k s Hk K) as [w [W1 W2]]. assert (Hkl : In k log). { destruct (in_dec Z.eq_dec k log) as [Y|Y]; [exact Y|]. pose proof (Hge k w W1 Y). lra. }
        rewrite <- (P1 k Hk (or_introl Hkl)). exact K. }
    rewrite Ebd in Nb, Eb.
    assert (Eup : below t0 (upw own (dmins dims S j)) = below t0 (somes (dmins dims S j))).
    { destruct own as [o|]; cbn [upw]; [|reflexivity]. apply below_below. specialize (P3 o eq_refl). lra. }
    assert (Hnu : upw own (dmins dims S j) <> []) by (intros K; rewrite K in Eup; cbn in Eup; congruence).
    specialize (P4 Hnu). rewrite <- Eup in Nb, Eb. pose proof (RF_below_le (f j) t0 _ Hfp Nb). lra.
  - (* a cell without a time is OPEN: none of its neighbours is accepted *)
    assert (Eop : cst g j = Some OPEN).
    { rewrite (cst_get _ _ _ Hc) in *. destruct (c_state c) eqn:Es; [reflexivity| |congruence].
      destruct (al_nar _ _ _ _ _ _ A j) as [r [K _]]; [rewrite (cst_get _ _ _ Hc), Es; reflexivity|]. fold T in K. congruence. }
    destruct (adjacent_adjacent_in _ _ _ (adjacent_sym _ _ _ Ha)) as [d [Hd Hdj]].
    pose proof (dmin_spec dims T j d Hp Hjr Hd) as Hm. destruct (dmin dims T j d) as [a|] eqn:Ea; cbn in Hm.
    2:{ specialize (Hm m Hdj). fold T in Em. congruence. }
    destruct Hm as [_ Hm]. specialize (Hm m rm Hdj Em).
    assert (Hin : In a (somes (dmins dims T j))) by (apply in_somes, in_dmins; eauto).
    assert (Hne : somes (dmins dims T j) <> []) by (intros K; rewrite K in Hin; destruct Hin).
    exists (RF (f j) M (somes (dmins dims T j))). split.
    { unfold eik. rewrite Er. cbn [upw]. destruct (somes (dmins dims T j)); [congruence|reflexivity]. }
    pose proof (RF_one (f j) _ a Hfp Hin). split; [|lra].
    destruct (RF_bounds (f j) M _ Hfp HM Hne) as [_ [_ [b [Hb1 Hb2]]]]. destruct (in_somes_dmins dims Hp T j b Hjr Hb1) as [k [Hk1 Hk2]].
    assert (~ In k log). { intros K. exact (mi_clos _ _ _ _ _ _ _ _ I k j K (adjacent_sym _ _ _ Hk1) Hfj Eop). }
    pose proof (Hge k b Hk2 H0). lra.
Qed.
Lemma log_rng g q log rem cur x : MIX g q log rem cur -> In x (cur ++ log) -> rng x.
Proof.
  intros I Hx. apply (mi_fr _ _ _ _ _ _ _ _ I) in Hx. unfold cst in Hx. destruct (getCell g x) as [c|] eqn:E; [|discriminate].
  apply getCell_range in E. destruct (ev_ok g (mi_ev _ _ _ _ _ _ _ _ I)) as [_ [[_ <-] _]]. exact E.
Qed.

(** the cell [j] was evaluated and keeps its time *)
Lemma AL_done g q t0 log Bd m done j : AL g q t0 log Bd (seen1 log m done) ->
  (cst g j = Some NARROW -> exists r, times g j = Some r /\ snap (times g) (fun _ => True) j r) ->
  AL g q t0 log Bd (seen1 log m (done ++ [j])).
Proof.
  intros [A1 A0 A2 A3 A4 A5 A6] H. constructor; auto. intros k Hk. destruct (Z.eq_dec k j) as [->|Hne].
  - destruct (H Hk) as [r [K1 K2]]. exists r. split; [exact K1|]. eapply snap_seen; [|exact K2]. intros; exact Logic.I.
  - destruct (A4 k Hk) as [r [K1 K2]]. exists r. split; [exact K1|]. eapply snap_seen; [|exact K2].
    intros x _ [Hx|[Hx Hd]]; [left; exact Hx|right; split; [exact Hx|]]. apply in_app_or in Hd. destruct Hd as [Hd|[Hd|[]]]; [exact Hd|congruence].
Qed.

(** the cell [j] was evaluated and gets a new time *)
Lemma AL_upd g q g' q' t0 log Bd m done j t : AL g q t0 log Bd (seen1 log m done) -> cur_ok g t0 Bd m ->
  rng j -> ~ In j log -> j <> m -> ~ In j init ->
  times g' = upd (times g) j t -> QLX (upd (times g) j t) q' t0 -> (forall x, In x (bag q) -> In x (bag q')) -> In j (bag q') ->
  (forall k, cst g' k = if j =? k then Some NARROW else cst g k) ->
  (forall o, times g j = Some o -> (t <= o)%R) -> eik dims (f j) (times g) j = Some t -> (t <= Bd)%R ->
  AL g' q' t0 log Bd (seen1 log m (done ++ [j])) /\ cur_ok g' t0 Bd m.
Proof.
  intros A [rm [Em [Hrm Hum]]] Hj Hjl Hjm Hji ET Q Hb Hjb Hc Ho He HtK. pose proof A as [A1 A0 A2 A3 A4 A5 A6]. pose proof Rmargin_pos as HM.
  destruct (eik_some _ _ _ _ _ He) as [Hne Hu].
  split.
  - constructor; rewrite ?ET; auto.
    + intros x r Hx. destruct (Z.eq_dec x j) as [->|Hxj]; [left; exact Hjb|]. rewrite upd_other in Hx by exact Hxj.
      destruct (A2 x r Hx) as [L|L]; auto.
    + intros x Hx. rewrite upd_other; [auto|]. intros ->. contradiction.
    + intros k. rewrite Hc. destruct (Z.eqb_spec j k) as [<-|Hjk].
      * intros _. exists t. split; [apply upd_same|]. apply snap_new; auto. intros _. rewrite <- Hu. lra.
      * intros Hk. destruct (A4 k Hk) as [r [K1 K2]]. exists r. split; [rewrite upd_other by congruence; exact K1|].
        apply snap_upd; [|intros [L|[L _]]; [contradiction|congruence]|exact Ho]. eapply snap_seen; [|exact K2].
        intros x _ [Hx|[Hx Hd]]; [left; exact Hx|right; split; [exact Hx|]]. apply in_app_or in Hd. destruct Hd as [Hd|[Hd|[]]]; [exact Hd|congruence].
    + intros k Hk. rewrite upd_other; [auto|intros ->; contradiction].
    + intros x r Hx. destruct (Z.eq_dec x j) as [->|Hxj]; [rewrite upd_same in Hx; injection Hx as <-; exact HtK|].
      rewrite upd_other in Hx by exact Hxj. eauto.
  - exists rm. rewrite ET. split; [rewrite upd_other by congruence; exact Em|]. split; assumption.
Qed.

Lemma better_inf r : isTimeBetterThan (XPInf : XR) (XFin r) = false.
Proof. unfold isTimeBetterThan. rewrite xr_margin. reflexivity. Qed.

Lemma AL_neighbor s j m log Bd rem done t0 : (Bd <= F * IZR (box_size dims))%R ->
  MIX (uf_g s) (uf_q s) log rem [m] -> AL (uf_g s) (uf_q s) t0 log Bd (seen1 log m done) -> cur_ok (uf_g s) t0 Bd m ->
  adjacent dims m j -> ~ In j done ->
  exists s', ufmm_neighbor s j = Ok s' /\ MIX (uf_g s') (uf_q s') log rem [m] /\
    AL (uf_g s') (uf_q s') t0 log Bd (seen1 log m (done ++ [j])) /\ cur_ok (uf_g s') t0 Bd m /\
    (forall x, In x (m :: log) -> times (uf_g s') x = times (uf_g s) x) /\
    (forall x, cst (uf_g s) x <> Some OPEN -> cst (uf_g s') x <> Some OPEN) /\ (free g0 j -> cst (uf_g s') j <> Some OPEN).
Proof.
  intros HKB I A C Ha Hdone. pose proof (al_pos _ _ _ _ _ _ A) as Ht0. pose proof (adjacent_range _ _ _ Ha) as [Hmr Hjr]. set (g := uf_g s) in *. set (q := uf_q s) in *.
  destruct (ev_ok g (mi_ev _ _ _ _ _ _ _ _ I)) as [Tok [Hg [Hre [Hsl HF]]]].
  destruct (getCell_in dims g j Hg Hjr) as [c Hc].
  assert (Hgoal : exists s', ufmm_neighbor s j = Ok s' /\ AL (uf_g s') (uf_q s') t0 log Bd (seen1 log m (done ++ [j])) /\ cur_ok (uf_g s') t0 Bd m /\
    (forall x, In x (m :: log) -> times (uf_g s') x = times g x)).
  { unfold ufmm_neighbor. fold g q. rewrite Hc. cbn [bind].
    destruct (fmstate_eqb (c_state c) FROZEN) eqn:EF; cbn [orb].
    { exists s. split; [reflexivity|]. split; [|auto]. apply AL_done; [exact A|]. fold g. rewrite (cst_get _ _ _ Hc). apply eqb_state in EF. rewrite EF. discriminate. }
    apply eqb_state_false in EF. destruct (isOccupied c) eqn:EO.
    { exists s. split; [reflexivity|]. split; [|auto]. apply AL_done; [exact A|]. intros K. destruct (mi_nar _ _ _ _ _ _ _ _ I j K) as [K1 _].
      apply (frame_free _ _ _ _ HF) in K1. destruct K1 as [c' [Hc' Ho']]. congruence. }
    assert (Hfg : free g j) by (exists c; auto). assert (Hfj : fr j) by (eapply frame_free_inv; eauto).
    assert (Hfin : ~ In j log /\ j <> m).
    { assert (K : ~ In j ([m] ++ log)). { intros K. apply (mi_fr _ _ _ _ _ _ _ _ I) in K. fold g in K. rewrite (cst_get _ _ _ Hc) in K. congruence. }
      split; [intros K1; apply K; right; exact K1|intros ->; apply K; left; reflexivity]. }
    destruct Hfin as [Hjl Hjm].
    assert (Hji : ~ In j init).
    { intros K. destruct (mi_src _ _ _ _ _ _ _ _ I j K) as [K1|K1].
      - assert (Hm : In m init) by (apply (mi_first _ _ _ _ _ _ _ _ I); [intros E; rewrite E in K1; destruct K1|left; reflexivity]). exact (Hsep m j Hm K Ha Hfj).
      - destruct K1 as [K1|K1]; [congruence|contradiction]. }
    pose proof (eval_range g q t0 log Bd rem m done j c I A C Ha Hdone Hc EF Hfj) as HR. cbv zeta in HR.
    rewrite (solveEikonal_X dims g j Hd2 Hlt Hg Tok Hre Hfg Hjr). cbn [bind]. rewrite Hsl.
    assert (Hval : c_val c = ox (times g j)) by (rewrite (times_val g j c Tok Hc); reflexivity).
    assert (Hkeep : forall x u, In x (m :: log) -> upd (times g) j u x = times g x).
    { intros x u Hx. apply upd_other. intros ->. destruct Hx as [Hx|Hx]; [congruence|contradiction]. }
    destruct (fmstate_eqb (c_state c) NARROW) eqn:EN.
    - apply eqb_state in EN. assert (En : cst g j = Some NARROW) by (rewrite (cst_get _ _ _ Hc), EN; reflexivity).
      destruct (al_nar _ _ _ _ _ _ A j En) as [r [Er _]]. rewrite Er in HR, Hval. cbn [ox] in Hval. rewrite Hval.
      destruct (eik dims (f j) (times g) j) as [t|] eqn:Ee; cbn [ox].
      2:{ rewrite better_inf. exists s. split; [reflexivity|]. split; [|auto]. apply AL_done; [exact A|]. intros _. exists r. split; [exact Er|].
          exists (times g), (times g j). split; [reflexivity|]. split; [intros k v _ Hv; exists v; split; [exact Hv|lra]|]. split; [intros o Ho; assert (r = o) by congruence; lra|].
          intros K. apply eik_none in Ee. contradiction. }
      destruct (eik_some _ _ _ _ _ Ee) as [Hne Hu].
      destruct (isTimeBetterThan (XFin t : XR) (XFin r)) eqn:EB.
      + apply better_X in EB. specialize (HR t eq_refl EB).
        destruct (updCell_in g j c (fun c => with_val c (XFin t : XR)) Hc) as [g1 H1]. change (setArrivalTime g j (XFin t : XR) = Ok g1) in H1. rewrite H1. cbn [bind].
        unfold uf_increase. cbn [uf_g uf_q]. pose proof (get_set_same _ _ _ _ _ H1 Hc) as Hc1. rewrite Hc1. cbn [bind with_val c_bucket c_val].
        destruct (mi_bk _ _ _ _ _ _ _ _ I j En) as [b0 [Eb [Hb0 Hin]]]. fold g in Eb. rewrite (cbk_get _ _ _ Hc) in Eb. injection Eb as <-.
        pose proof (al_q _ _ _ _ _ _ A) as Q. pose proof (ql_size _ _ _ _ _ Q) as Esz. rewrite Esz in Hb0.
        destruct (incr_L size inc Hsize Hsize2 Hinc _ _ _ j (c_bucket c) t Q (mi_nd _ _ _ _ _ _ _ _ I) Hb0 Hin (fits _ _ _ Ht0 (proj1 HR) (proj2 HR) HKB)) as [q' [b [Hq Q']]].
        fold q in Hq. rewrite Hq. cbn [bind].
        destruct (updCell_in g1 j _ (fun c => with_bucket c b) Hc1) as [g2 H2]. change (setBucket g1 j b = Ok g2) in H2. rewrite H2. cbn [bind].
        exists (mkUf g2 q'). split; [reflexivity|]. cbn [uf_g uf_q].
        assert (ET : times g2 = upd (times g) j t).
        { rewrite (times_upd_keep g1 j _ g2 H2) by reflexivity. apply times_set, H1. }
        assert (P : Permutation (bag q') (bag q)).
        { destruct (incr_spec q j (c_bucket c) (XFin t : XR) q' b (ql_ui _ _ _ _ _ Q)) as [_ [P _]]; auto; [rewrite Esz; lia|apply (mi_nd _ _ _ _ _ _ _ _ I)|rewrite Esz; exact Hb0]. }
        assert (Hjb : In j (bag q)) by (apply (mi_bag _ _ _ _ _ _ _ _ I); left; exact En).
        destruct (AL_upd g q g2 q' t0 log Bd m done j t A C Hjr Hjl Hjm Hji ET Q') as [A' C']; auto.
        * intros x Hx. eapply Permutation_in; [symmetry; exact P|exact Hx].
        * eapply Permutation_in; [symmetry; exact P|exact Hjb].
        * intros k. rewrite (cst_keep _ _ (fun c => with_bucket c b) _ k (fun _ => eq_refl) H2), (cst_keep _ _ (fun c => with_val c (XFin t : XR)) _ k (fun _ => eq_refl) H1).
          destruct (Z.eqb_spec j k) as [<-|]; [exact En|reflexivity].
        * intros o Ho. assert (r = o) by congruence. pose proof Rmargin_pos. lra.
        * lra.
        * split; [exact A'|]. split; [exact C'|]. intros x Hx. rewrite ET. apply Hkeep, Hx.
      + exists s. split; [reflexivity|]. split; [|auto]. apply AL_done; [exact A|]. intros _. exists r. split; [exact Er|].
        exists (times g), (times g j). split; [reflexivity|]. split; [intros k v _ Hv; exists v; split; [exact Hv|lra]|]. split; [intros o Ho; assert (r = o) by congruence; lra|].
        intros K. rewrite <- Hu. destruct (Rle_dec r (t + M)) as [L|L]; [exact L|]. exfalso.
        assert (K2 : isTimeBetterThan (XFin t : XR) (XFin r) = true) by (apply better_X; lra). congruence.
    - apply eqb_state_false in EN. pose proof (state_cases _ EF EN) as EOp. assert (Eop : cst g j = Some OPEN) by (rewrite (cst_get _ _ _ Hc), EOp; reflexivity).
      assert (Hnb : ~ In j (bag q)).
      { intros K. apply (mi_bag _ _ _ _ _ _ _ _ I) in K. fold g in K. destruct K as [K|K]; [congruence|]. apply in_app_or in K. destruct K as [K|[K|[]]]; [|congruence].
        apply Hji, (mi_rem _ _ _ _ _ _ _ _ I j K). }
      assert (Ej : times g j = None). { destruct (times g j) as [r|] eqn:E; [|reflexivity]. exfalso. destruct (al_dom _ _ _ _ _ _ A j r E); contradiction. }
      rewrite Ej in HR. destruct HR as [t [Ee Ht]]. rewrite Ee. cbn [ox].
      destruct (updCell_in g j c (fun c => with_state c NARROW) Hc) as [g1 H1]. change (setState g j NARROW = Ok g1) in H1. rewrite H1. cbn [bind].
      pose proof (get_set_same _ _ _ _ _ H1 Hc) as Hc1.
      destruct (updCell_in g1 j _ (fun c => with_val c (XFin t : XR)) Hc1) as [g2 H2]. change (setArrivalTime g1 j (XFin t : XR) = Ok g2) in H2. rewrite H2. cbn [bind].
      pose proof (get_set_same _ _ _ _ _ H2 Hc1) as Hc2. unfold uf_push. cbn [uf_g uf_q]. rewrite (val_set _ _ _ _ j H2), Z.eqb_refl. cbn [bind].
      pose proof (al_q _ _ _ _ _ _ A) as Q.
      assert (Hbne : bag q <> []). { assert (K : In m (bag q)) by (apply (mi_bag _ _ _ _ _ _ _ _ I); right; apply in_or_app; right; left; reflexivity). intros E. rewrite E in K. destruct K. }
      destruct (push_L size inc Hsize Hsize2 Hinc _ _ _ j t Q Hbne Hnb (fits _ _ _ Ht0 (proj1 Ht) (proj2 Ht) HKB)) as [q' [b [Hq Q']]]. fold q in Hq. rewrite Hq. cbn [bind].
      destruct (updCell_in g2 j _ (fun c => with_bucket c b) Hc2) as [g3 H3]. change (setBucket g2 j b = Ok g3) in H3. rewrite H3. cbn [bind].
      exists (mkUf g3 q'). split; [reflexivity|]. cbn [uf_g uf_q].
      assert (ET : times g3 = upd (times g) j t).
      { rewrite (times_upd_keep g2 j _ g3 H3) by reflexivity. rewrite (times_set _ _ _ _ H2). f_equal. apply (times_upd_keep g j _ g1 H1). reflexivity. }
      destruct (push_spec q j (XFin t : XR) q' b (ql_ui _ _ _ _ _ Q) Hq) as [_ [P _]].
      destruct (AL_upd g q g3 q' t0 log Bd m done j t A C Hjr Hjl Hjm Hji ET Q') as [A' C']; auto.
      + intros x Hx. eapply Permutation_in; [symmetry; exact P|right; exact Hx].
      + eapply Permutation_in; [symmetry; exact P|left; reflexivity].
      + intros k. rewrite (cst_keep _ _ (fun c => with_bucket c b) _ k (fun _ => eq_refl) H3), (cst_keep _ _ (fun c => with_val c (XFin t : XR)) _ k (fun _ => eq_refl) H2).
        apply cst_setState, H1.
      + intros o Ho. congruence.
      + lra.
      + split; [exact A'|]. split; [exact C'|]. intros x Hx. rewrite ET. apply Hkeep, Hx. }
  destruct Hgoal as [s' [Hn [A' [C' K']]]]. exists s'. split; [exact Hn|].
  destruct (MI_neighbor dims init g0 Hg0 Hsep s j s' m log rem I Ha Hn) as [I' [N1 [N2 _]]]. split; [exact I'|]. split; [exact A'|]. split; [exact C'|]. auto.
Qed.

Definition AH (g : grid XR) (q : uq (N := XR)) (t0 : R) (log : list Z) : Prop :=
  AL g q t0 log (F * INR (length log)) (fun _ k => In k log).

Lemma step_L s log rem t0 : MIX (uf_g s) (uf_q s) log rem [] -> AH (uf_g s) (uf_q s) t0 log -> bag (uf_q s) <> [] ->
  exists m s' rem' t1, ufmm_step s = Ok (m, s') /\ MIX (uf_g s') (uf_q s') (m :: log) rem' [] /\ AH (uf_g s') (uf_q s') t1 (m :: log) /\
    (forall x, In x log -> times (uf_g s') x = times (uf_g s) x).
Proof.
  intros I A Hne. pose proof A as [A1 A0 A2 A3 A4 A5 A6]. unfold ufmm_step.
  destruct (top_total (uf_q s) (ql_ui _ _ _ _ _ A1) Hne) as [q1 [m Ht]]. rewrite Ht. cbn [bind].
  destruct (top_L size inc Hsize Hinc _ _ _ _ _ A1 Ht) as [t1 [rm [Ht1 [Q1 [Em [Hrm Hall]]]]]].
  destruct (ev_ok _ (mi_ev _ _ _ _ _ _ _ _ I)) as [Tok [Hg [Hre [Hsl HF]]]].
  destruct (top_spec _ _ _ (ql_ui _ _ _ _ _ A1) Ht) as [U1 [Etab [Esz [Enb [rr Hrr]]]]].
  assert (Ebag : bag q1 = bag (uf_q s)) by (unfold bag; rewrite Etab; reflexivity).
  assert (Hmr : rng m).
  { unfold times, getArrivalTime in Em. destruct (getCell (uf_g s) m) as [c|] eqn:E; [|discriminate]. apply getCell_range in E. destruct Hg as [_ <-]. exact E. }
  destruct (getCell_in dims (uf_g s) m Hg Hmr) as [c Hc].
  destruct (updCell_in (uf_g s) m c (fun c => with_state c FROZEN) Hc) as [g1 H1]. change (setState (uf_g s) m FROZEN = Ok g1) in H1. rewrite H1. cbn [bind].
  destruct (MI_top dims init g0 Hg0 _ _ _ _ _ _ _ I Ht H1) as [rem' [I1 [_ [_ [Hml [Hr1 Hr2]]]]]].
  assert (ET : times g1 = times (uf_g s)) by (eapply times_upd_keep; [exact H1|reflexivity]).
  destruct (ev_ok _ (mi_ev _ _ _ _ _ _ _ _ I1)) as [_ [[Hsh _] _]]. rewrite Hsh, getNeighbors_eq by auto. cbn [bind].
  assert (HB : (F * INR (length log) + F <= F * IZR (box_size dims))%R).
  { assert (Hl : (length ([m] ++ log) <= Z.to_nat (box_size dims))%nat).
    { rewrite <- (length_zseq (Z.to_nat (box_size dims))). apply NoDup_incl_length; [apply (mi_log _ _ _ _ _ _ _ _ I1)|].
      intros x K. apply in_zseq. pose proof (log_rng _ _ _ _ _ x I1 K). lia. }
    cbn [app length] in Hl. pose proof (le_INR _ _ Hl) as L. rewrite S_INR in L. rewrite (INR_IZR_INZ (Z.to_nat _)), Z2Nat.id in L by (pose proof (box_size_pos _ Hp); lia).
    nra. }
  assert (Ac1 : AL g1 q1 t1 log (F * INR (length log) + F) (seen1 log m [])).
  { constructor; rewrite ?ET; auto.
    - lra.
    - intros x r Hx. rewrite Ebag. apply (A2 x r Hx).
    - intros j Hj. rewrite (cst_setState _ _ _ _ j H1) in Hj; destruct (Z.eqb_spec m j) as [Hmj|Hmj]; [discriminate|].
      destruct (A4 j Hj) as [r [K1 K2]]. exists r. split; [exact K1|]. eapply snap_seen; [|exact K2]. intros k _ [K|[_ []]]; exact K.
    - intros x r Hx. specialize (A6 x r Hx). lra. }
  assert (C1 : cur_ok g1 t1 (F * INR (length log) + F) m).
  { exists rm. rewrite ET. split; [exact Em|]. split; [exact Hrm|]. specialize (A6 m rm Em). lra. }
  destruct (foldM_seq (fun done s2 => MIX (uf_g s2) (uf_q s2) log rem' [m] /\ AL (uf_g s2) (uf_q s2) t1 log (F * INR (length log) + F) (seen1 log m done) /\ cur_ok (uf_g s2) t1 (F * INR (length log) + F) m /\
      (forall x, In x (m :: log) -> times (uf_g s2) x = times (uf_g s) x) /\ (forall x, In x done -> free g0 x -> cst (uf_g s2) x <> Some OPEN))
    ufmm_neighbor (nbrs dims m) (mkUf g1 q1)) as [s2 [Hfold [I2 [Ac2 [C2 [K2 O2]]]]]].
  - cbn [uf_g uf_q]. split; [exact I1|]. split; [exact Ac1|]. split; [exact C1|]. split; [intros; rewrite ET; reflexivity|intros x []].
  - intros pre j post s1 E [Ia [Aa [Ca [Ka Oa]]]].
    assert (Hadj : adjacent dims m j) by (apply nbrs_spec; auto; rewrite E; apply in_or_app; right; left; reflexivity).
    assert (Hnp : ~ In j pre). { pose proof (nbrs_NoDup dims m Hp Hmr) as ND. rewrite E in ND. apply NoDup_remove_2 in ND. intros K; apply ND, in_or_app; left; exact K. }
    destruct (AL_neighbor s1 j m log (F * INR (length log) + F) rem' pre t1 HB Ia Aa Ca Hadj Hnp) as [s' [Hn [Ib [Ab [Cb [Kb [Ob Oj]]]]]]].
    exists s'. split; [exact Hn|]. split; [exact Ib|]. split; [exact Ab|]. split; [exact Cb|]. split.
    + intros x Hx. rewrite Kb, Ka by exact Hx. reflexivity.
    + intros x Hx Hfx. apply in_app_or in Hx. destruct Hx as [Hx|[<-|[]]]; auto.
  - rewrite Hfold. cbn [bind]. destruct (pop_total (uf_q s2) (mi_ui _ _ _ _ _ _ _ _ I2)) as [q3 Hq3]. rewrite Hq3. cbn [bind].
    assert (Hcl : forall x, adjacent dims m x -> free g0 x -> cst (uf_g s2) x <> Some OPEN) by (intros x Hx; apply O2, nbrs_spec; auto).
    destruct (MI_pop dims init g0 _ _ _ _ _ _ I2 Hcl Hq3) as [I3 [_ [Et0 _]]].
    assert (Hmb : In m (bag (uf_q s2))) by (apply (mi_bag _ _ _ _ _ _ _ _ I2); right; apply in_or_app; right; left; reflexivity).
    destruct (pop_L size inc Hsize Hinc _ _ _ _ (al_q _ _ _ _ _ _ Ac2) ltac:(intros E; rewrite E in Hmb; destruct Hmb) Hq3) as [t2 [Ht2 Q3]].
    exists m, (mkUf (uf_g s2) q3), rem', t2. split; [reflexivity|]. cbn [uf_g uf_q]. split; [exact I3|].
    split; [|intros x Hx; apply K2; right; exact Hx].
    pose proof Ac2 as [B1 B0 B2 B3 B4 B5 B6]. destruct C2 as [rm' [Em' [Hrm' Hum']]].
    assert (Etl : exists l, bucket (uf_q s2) (uq_i0 (uf_q s2)) = l ++ [m]).
    { destruct (mi_tl _ _ _ _ _ _ _ _ I2) as [l El]. exists (l ++ rem'). rewrite <- app_assoc. exact El. }
    destruct Etl as [l El].
    assert (Hnb : uq_nb (uf_q s2) <> 0) by (rewrite (ui_nb _ (mi_ui _ _ _ _ _ _ _ _ I2)); destruct (bag (uf_q s2)); [destruct Hmb|cbn; lia]).
    destruct (pop_spec _ _ _ _ (mi_ui _ _ _ _ _ _ _ _ I2) Hnb (top_here _ l m (mi_ui _ _ _ _ _ _ _ _ I2) El) Hq3) as [_ [P3 _]].
    constructor; auto.
    + lra.
    + intros x r Hx. destruct (B2 x r Hx) as [K|K]; [|right; right; exact K].
      eapply Permutation_in in K; [|exact P3]. destruct K as [<-|K]; [right; left; reflexivity|left; exact K].
    + intros j Hj. destruct (B4 j Hj) as [r [L1 L2]]. exists r. split; [exact L1|]. eapply snap_seen; [|exact L2].
      intros k Hk [<-|K]; [|left; exact K]. right. split; [reflexivity|]. apply nbrs_spec; auto. apply adjacent_sym, Hk.
    + intros j [<-|Hj]; [congruence|auto].
    + intros x r Hx. specialize (B6 x r Hx). cbn [length]. rewrite S_INR. lra.
Qed.

Lemma loop_L goal : forall fuel s log rem t0, MIX (uf_g s) (uf_q s) log rem [] -> AH (uf_g s) (uf_q s) t0 log ->
  (Z.to_nat (box_size dims) < fuel + length log)%nat ->
  exists s' log' rem' t1, ufmm_loop fuel goal s log = Ok (s', log') /\ MIX (uf_g s') (uf_q s') log' rem' [] /\ AH (uf_g s') (uf_q s') t1 log' /\
    (bag (uf_q s') = [] \/ exists r, log' = goal :: r) /\ (forall x, In x log -> In x log' /\ times (uf_g s') x = times (uf_g s) x).
Proof.
  induction fuel as [|k IH]; intros s log rem t0 I A Hfuel.
  { pose proof (MI_bound dims init g0 Hg0 _ _ _ _ I). lia. }
  cbn [ufmm_loop]. unfold uq_empty. pose proof (mi_ui _ _ _ _ _ _ _ _ I) as U.
  destruct (Z.eqb_spec (uq_nb (uf_q s)) 0) as [E|E].
  { exists s, log, rem, t0. rewrite (ui_nb _ U) in E. assert (bag (uf_q s) = []) by (destruct (bag (uf_q s)); [reflexivity|cbn in E; lia]). auto 10. }
  assert (Hne : bag (uf_q s) <> []) by (intros K; apply E; rewrite (ui_nb _ U), K; reflexivity).
  destruct (step_L s log rem t0 I A Hne) as [m [s1 [rem1 [t1 [Hs [I1 [A1 K1]]]]]]]. rewrite Hs. cbn [bind].
  destruct (Z.eqb_spec m goal) as [->|Hmg].
  { exists s1, (goal :: log), rem1, t1. split; [reflexivity|]. split; [exact I1|]. split; [exact A1|]. split; [eauto|]. intros x Hx. split; [right; exact Hx|auto]. }
  destruct (IH s1 (m :: log) rem1 t1 I1 A1 ltac:(cbn [length]; lia)) as [s2 [log2 [rem2 [t2 [H2 [I2 [A2 [E2 K2]]]]]]]].
  exists s2, log2, rem2, t2. split; [exact H2|]. split; [exact I2|]. split; [exact A2|]. split; [exact E2|].
  intros x Hx. destruct (K2 x (or_intror Hx)) as [L1 L2]. split; [exact L1|]. rewrite L2. apply K1, Hx.
Qed.

Variable q0 : uq (N := XR).
Hypothesis HqU : UI q0.
Hypothesis HqE : bag q0 = [].
Hypothesis HqS : uq_size q0 = size.
Hypothesis HqI : uq_inc q0 = XFin inc.
Hypothesis HqD : uq_delta q0 = XFin dl.
Hypothesis HqT : exists t, uq_t0 q0 = XFin t /\ (0 <= t)%R.

Lemma fits0 : castable size inc 0 0.
Proof.
  split; [lra|]. replace ((0 - 0) * IZR size / inc)%R with 0%R; [lra|]. field. lra.
Qed.

Lemma init_L : exists s t0, foldM (fun s i => g1 <- setArrivalTime (uf_g s) i n0 ;; uf_push (mkUf g1 (uf_q s)) i) init (mkUf g0 q0) = Ok s /\
  MIX (uf_g s) (uf_q s) [] (rev init) [] /\ AH (uf_g s) (uf_q s) t0 [].
Proof.
  destruct (foldM_seq (fun pre (s : uf_state (N := XR)) => grid_ok dims (uf_g s) /\ Permutation (bag (uf_q s)) pre /\ (pre = [] -> s = mkUf g0 q0) /\
      (pre <> [] -> QLX (times (uf_g s)) (uf_q s) 0))
    (fun s i => g1 <- setArrivalTime (uf_g s) i n0 ;; uf_push (mkUf g1 (uf_q s)) i) init (mkUf g0 q0)) as [s [Hs [Gs [Ps [Es Qs]]]]].
  - cbn [uf_g uf_q]. split; [exact Hg0|]. split; [rewrite HqE; constructor|]. split; [reflexivity|congruence].
  - intros pre i post s E [Gg [Pp [E0 Q0]]].
    assert (Hii : In i init) by (rewrite E; apply in_or_app; right; left; reflexivity).
    assert (Hnp : ~ In i pre). { pose proof Hnd as ND. rewrite E in ND. apply NoDup_remove_2 in ND. intros K; apply ND, in_or_app; left; exact K. }
    destruct (getCell_in dims (uf_g s) i Gg (Hrng i Hii)) as [c Hc].
    destruct (updCell_in (uf_g s) i c (fun c => with_val c (XFin 0 : XR)) Hc) as [g1 H1]. change (setArrivalTime (uf_g s) i (n0 : XR) = Ok g1) in H1. rewrite H1. cbn [bind].
    unfold uf_push. cbn [uf_g uf_q]. rewrite (val_set _ _ _ _ i H1), Z.eqb_refl. cbn [bind]. pose proof (get_set_same _ _ _ _ _ H1 Hc) as Hc1.
    assert (Hpush : exists q' b, uq_push (uf_q s) i (n0 : XR) = Ok (q', b) /\ QLX (setT (times (uf_g s)) i 0) q' 0 /\ UI (uf_q s)).
    { destruct pre as [|a pre0].
      - rewrite (E0 eq_refl). cbn [uf_q uf_g]. destruct (push_first_L size inc Hsize Hinc (times g0) q0 i 0 HqU HqE HqI HqD HqS) as [q' [b [K1 K2]]].
        exists q', b. split; [exact K1|]. split; [exact K2|exact HqU].
      - specialize (Q0 ltac:(discriminate)). assert (Hb : bag (uf_q s) <> []). { intros K. rewrite K in Pp. apply Permutation_nil in Pp. discriminate. }
        assert (Hnb : ~ In i (bag (uf_q s))) by (intros K; apply Hnp; eapply Permutation_in; eauto).
        destruct (push_L size inc Hsize Hsize2 Hinc _ _ _ i 0 Q0 Hb Hnb fits0) as [q' [b [K1 K2]]]. exists q', b. split; [exact K1|]. split; [exact K2|apply (ql_ui _ _ _ _ _ Q0)]. }
    destruct Hpush as [q' [b [Hq [Q' U]]]]. rewrite Hq. cbn [bind].
    destruct (updCell_in g1 i _ (fun c => with_bucket c b) Hc1) as [g2 H2]. change (setBucket g1 i b = Ok g2) in H2. rewrite H2. cbn [bind].
    exists (mkUf g2 q'). split; [reflexivity|]. cbn [uf_g uf_q].
    split; [exact (updCell_grid_ok _ _ _ _ _ H2 (updCell_grid_ok _ _ _ _ _ H1 Gg))|].
    destruct (push_spec _ _ _ _ _ U Hq) as [_ [P _]]. split; [rewrite P, Pp; apply Permutation_cons_append|].
    split; [destruct pre; discriminate|]. intros _.
    assert (ET : times g2 = upd (times (uf_g s)) i 0) by (rewrite (times_upd_keep g1 i _ g2 H2) by reflexivity; apply times_set, H1).
    rewrite ET. exact Q'.
  - assert (Hsz4 : uq_size q0 < 4294967296) by (rewrite HqS; lia).
    destruct (MI_init dims init g0 Hg0 Hsep Hrng Hopen Hnd q0 s HqU HqE Hsz4 (start_cast size inc Hinc q0 HqS HqI) Hs) as [I [_ [V1 V2]]].
    assert (TV : forall x, times (uf_g s) x = if in_dec Z.eq_dec x init then Some 0%R else None).
    { intros x. unfold times. destruct (in_dec Z.eq_dec x init) as [K|K]; [rewrite (V1 x K); reflexivity|]. rewrite (V2 x K).
      unfold getArrivalTime. destruct (getCell g0 x) as [c|] eqn:Ec; [|reflexivity]. cbn [bind]. rewrite (Hfresh x c Ec). reflexivity. }
    assert (HQ : exists t0, (0 <= t0)%R /\ QLX (times (uf_g s)) (uf_q s) t0).
    { destruct init as [|a r] eqn:Ei; [|exists 0%R; split; [lra|apply Qs; discriminate]]. destruct HqT as [t [Et Ht]]. exists t. split; [exact Ht|]. rewrite (Es eq_refl). cbn [uf_q uf_g].
      constructor; auto. intros x i Hi Hx. exfalso. assert (K : In x (bag q0)) by (eapply (bag_bucket q0 x i HqU); [lia|exact Hx]). rewrite HqE in K. destruct K. }
    destruct HQ as [t0 [Ht0 Q]]. exists s, t0. split; [exact Hs|]. split; [exact I|]. constructor; auto.
    + intros x r Hx. rewrite TV in Hx. destruct (in_dec Z.eq_dec x init) as [K|K]; [|discriminate]. left. eapply Permutation_in; [symmetry; exact Ps|exact K].
    + intros x Hx. rewrite TV. destruct (in_dec Z.eq_dec x init); [reflexivity|contradiction].
    + intros j Hj. exfalso. destruct (mi_nar _ _ _ _ _ _ _ _ I j Hj) as [_ [K _]]. apply K. eapply Permutation_in; [exact Ps|]. apply (mi_bag _ _ _ _ _ _ _ _ I). left; exact Hj.
    + intros x r Hx. rewrite TV in Hx. destruct (in_dec Z.eq_dec x init); [|discriminate]. injection Hx as <-. cbn. lra.
Qed.

(** a whole run: it is defined *)
Theorem ufmm_L goal fuel : (Z.to_nat (box_size dims) < fuel)%nat ->
  exists s log, ufmm_run fuel goal init g0 q0 = Ok (s, log) /\
    (forall x, In x log -> times (uf_g s) x <> None) /\
    (forall x t, times (uf_g s) x = Some t -> exists u, X x = Some u /\ (u <= t <= F * INR (length log))%R) /\
    ((forall x, In x log <-> reachable dims (fun k => In k init) fr x) \/ exists r, log = goal :: r) /\
    (bag (uf_q s) = [] -> forall x, times (uf_g s) x <> None -> In x log).
Proof.
  intros Hfuel. destruct init_L as [s0 [t0 [H0 [I0 A0]]]].
  destruct (loop_L goal fuel s0 [] _ t0 I0 A0 ltac:(cbn; lia)) as [s [log [rem [t1 [H1 [I1 [A1 [E1 _]]]]]]]].
  exists s, log. split; [unfold ufmm_run; rewrite H0; exact H1|].
  destruct (ev_above dims init Hd2 Hlt X g0 (uf_g s) Hg0 Hreal HX Hfresh (mi_ev _ _ _ _ _ _ _ _ I1)) as [_ Hab].
  split; [apply (al_log _ _ _ _ _ _ A1)|]. split; [|split].
  - intros x t Ht. destruct (Hab x t Ht) as [u [U1 U2]]. exists u. split; [exact U1|]. split; [exact U2|]. exact (al_bd _ _ _ _ _ _ A1 x t Ht).
  - destruct E1 as [E1|E1]; [left|right; exact E1]. apply (MI_done dims init g0 Hg0 _ _ _ _ I1 E1).
  - intros Eb x Hx. destruct (times (uf_g s) x) as [t|] eqn:Et; [|congruence].
    destruct (al_dom _ _ _ _ _ _ A1 x t Et) as [K|K]; [rewrite Eb in K; destruct K|exact K].
Qed.

End UL.

(** FIMTerm.v - FIM ends (exact arithmetic), whatever the tolerance (proofs for C71). *)
From Coq Require Import Reals Lra Permutation.
From Verif Require Import Base BaseFacts Num NumXR NumLaws Grid GridFacts GridUpd GridMore Spec Obs Eikonal
  SweepModel QueueModel Frame FMMStruct EikR Solution XGrid FMMAbs FMMX Relax Examples Term SweepX Exact Evolve Bound FIMX Level.
Open Scope Z_scope.

Section FT.
Variable dims : list Z.
Hypothesis Hd2 : dims2 dims.
Hypothesis Hlt : 2 * box_size dims <= 4294967296.
Variable init : list Z.
Hypothesis Hrng : forall i, In i init -> 0 <= i < box_size dims.
Variable g0 : grid XR.
Hypothesis Hg0 : grid_ok dims g0.
Hypothesis Hreal : reals_ok g0.
Hypothesis Hfresh : forall i c, getCell g0 i = Ok c -> c_val c = XPInf.
Hypothesis Hopen : forall i c, getCell g0 i = Ok c -> c_state c = OPEN.
Hypothesis Hsep : separated dims g0 init.
Variable e : R.
Hypothesis He : (0 <= e)%R.
Variable X : time_map.
Hypothesis HX : exact_solution dims (fun i => In i init) (free g0) (slow g0) X.

Let Hp : proper dims := dims2_proper dims Hd2.
Notation fr := (free g0).
Notation f := (slow g0).
Notation M := Rmargin.
Notation FX := (FX dims init g0 e).
Notation sett := (sett dims g0 e).
Notation reach := (reachable dims (fun i => In i init) fr).
Let Hf : forall i, fr i -> (0 < f i)%R.
Proof. intros i Hi. apply slow_pos; assumption. Qed.

Variables gam fmax : R.
Variables K B : nat.
Hypothesis Hg_pos : (0 < gam)%R.
Hypothesis Hg_m : (gam <= M / 2)%R.
Hypothesis Hg_f : forall i, fr i -> (gam <= f i)%R.
Hypothesis Hfmax : forall i, fr i -> (f i <= fmax)%R.
Notation top := (INR K * gam)%R.
Notation Cst := (fmax + 2 * M + e)%R.
Hypothesis HK : (INR (S B) * Cst < top)%R.
Notation MU := (mu dims f gam 0 K).

(** listed cells removed *)
Definition excl (L : list Z) (T : time_map) : time_map := fun k => if in_dec Z.eq_dec k L then None else T k.

Lemma sett_fewer T T' i : 0 <= i < box_size dims -> T' i = T i ->
  (forall j, adjacent dims i j -> T' j = T j \/ T' j = None) -> sett T i -> sett T' i.
Proof.
  intros Hi E Ha H. unfold FIMX.sett in *. rewrite E. destruct (T i) as [t|].
  - eapply Rle_lt_trans; [|exact H]. apply US_le; auto. intros k s Hk Hs _.
    destruct (Ha k Hk) as [Ek|Ek]; [|congruence]. exists s. split; [congruence|lra].
  - intros j Hj. destruct (Ha j Hj) as [Ek|Ek]; [|exact Ek]. rewrite Ek. auto.
Qed.

Record FT (g : grid XR) (L Rm : list Z) (E : Z -> Prop) : Prop := {
  ft_x : FX g L Rm E;
  ft_s : forall i, 0 <= i < box_size dims -> fr i -> ~ In i init -> ~ In i L -> ~ In i Rm -> sett (excl L (times g)) i;
  ft_r : forall i, In i L -> reach i
}.

Lemma excl_in L T k : In k L -> excl L T k = None.
Proof. intros H. unfold excl. destruct (in_dec Z.eq_dec k L); [reflexivity|contradiction]. Qed.
Lemma excl_out L T k : ~ In k L -> excl L T k = T k.
Proof. intros H. unfold excl. destruct (in_dec Z.eq_dec k L); [contradiction|reflexivity]. Qed.

Lemma fX_ok g L Rm E : FX g L Rm E -> times_ok g /\ grid_ok dims g /\ reals_ok g /\ (forall i, slow g i = f i) /\
  frame (fun i => In i init) g0 g.
Proof. exact (fx_ok dims Hd2 Hlt init g0 Hg0 Hreal Hfresh e X HX g L Rm E). Qed.

Lemma fX_solve g L Rm E i : FX g L Rm E -> fr i -> solveEikonal g i = Ok (ox (eik dims (f i) (times g) i)).
Proof. exact (fx_solve dims Hd2 Hlt init g0 Hg0 Hreal Hfresh e X HX g L Rm E i). Qed.

Lemma fr_rng i : fr i -> 0 <= i < box_size dims.
Proof. exact (free_rng dims g0 Hg0 i). Qed.

Lemma finite_reach g i t : ev init g0 g -> times g i = Some t -> reach i.
Proof.
  intros He' Ht. unfold times, getArrivalTime in Ht. destruct (getCell g i) as [c|] eqn:Ec; cbn [bind] in Ht; [|discriminate].
  destruct (ev_reachable XR_laws dims Hd2 Hlt init g0 g Hg0 Hfresh He' i c Ec) as [Hv|Hr]; [|exact Hr].
  exfalso. change (c_val c = XPInf) in Hv. rewrite Hv in Ht. discriminate.
Qed.

(** the outcome of a part of a pass *)
Definition quiet (g g' : grid XR) (P : Prop) : Prop :=
  (MU (times g') < MU (times g))%nat \/
  (MU (times g') = MU (times g) /\ (forall k, lowo top (times g' k) = lowo top (times g k)) /\ P).

Lemma quiet_trans g g1 g2 (P Q W : Prop) : quiet g g1 P -> quiet g1 g2 Q ->
  ((forall k, lowo top (times g1 k) = lowo top (times g k)) -> (forall k, lowo top (times g2 k) = lowo top (times g1 k)) -> P -> Q -> W) ->
  quiet g g2 W.
Proof.
  unfold quiet. intros [A|[A1 [A2 A3]]] [C|[C1 [C2 C3]]] H; [left; lia|left; lia|left; lia|].
  right. split; [congruence|]. split; [intros k; rewrite C2; apply A2|]. auto.
Qed.

Lemma relax_quiet g g' L Rm E L' Rm' E' x q : FX g L Rm E -> FX g' L' Rm' E' -> fr x ->
  q = ox (eik dims (f x) (times g) x) -> setArrivalTime g x q = Ok g' ->
  times g' x = eik dims (f x) (times g) x /\
  quiet g g' (times g' x = times g x \/ lowo top (times g x) = None).
Proof.
  intros F F' Hx Hq H. destruct (fX_ok _ _ _ _ F) as [A _]. destruct (fX_ok _ _ _ _ F') as [A' _].
  assert (Hxx : times g' x = eik dims (f x) (times g) x).
  { unfold times at 1, getArrivalTime. rewrite (updCell_get _ _ _ _ x H), Z.eqb_refl.
    destruct (frame_free _ _ _ _ (proj2 (proj2 (proj2 (proj2 (fX_ok _ _ _ _ F))))) Hx) as [c [-> _]]. cbn [bind with_val c_val].
    rewrite Hq. destruct (eik dims (f x) (times g) x); reflexivity. }
  split; [exact Hxx|].
  exact (relax_mu dims f gam Hg_pos Hg_m K (times g) (times g') x (Hg_f x Hx) (Hf x Hx) (fr_rng x Hx)
    (fun t => times_nonneg g x t A) (fun t => times_nonneg g' x t A') (conj Hxx (fun k Hk => times_other _ _ _ _ k H Hk))).
Qed.

Lemma ft_meta g g' L L' Rm E E' : FT g L Rm E -> FX g' L' Rm E' -> times g' = times g ->
  (forall x, In x L' <-> In x L) -> FT g' L' Rm E'.
Proof.
  intros [A1 A2 A3] F Ht HL. constructor; [exact F| |].
  - intros i Hi Hfi Hni HnL HnR. rewrite Ht. rewrite HL in HnL. eapply sett_fewer; [exact Hi| | |apply (A2 i Hi Hfi Hni HnL HnR)].
    + rewrite !excl_out; [reflexivity|exact HnL|rewrite HL; exact HnL].
    + intros j _. left. unfold excl. destruct (in_dec Z.eq_dec j L') as [J|J], (in_dec Z.eq_dec j L) as [J'|J']; try reflexivity; rewrite HL in J; contradiction.
  - intros i Hi. apply A3, HL, Hi.
Qed.

(** one neighbour of a converged cell *)
Lemma ft_neighbor x L j Rm (s : grid XR * list Z) : FT (fst s) (snd s ++ L) (j :: Rm) (fun y => y = x) ->
  j <> x -> 0 <= j < box_size dims ->
  exists s', fim_neighbor s j = Ok s' /\ FT (fst s') (snd s' ++ L) Rm (fun y => y = x) /\
    quiet (fst s) (fst s') (forall y, In y (snd s') -> In y (snd s) \/ lowo top (times (fst s') y) = None).
Proof.
  intros F Hjx Hjr. destruct F as [F1 F2 F3].
  destruct s as [g ins]. cbn [fst snd] in *. destruct (fX_ok _ _ _ _ F1) as [A [B' [C [D G]]]].
  assert (Hex : exists s', fim_neighbor (g, ins) j = Ok s').
  { unfold fim_neighbor. destruct (getCell_in dims g j B' Hjr) as [c Hc]. rewrite Hc. cbn [bind].
    destruct (negb (fmstate_eqb (c_state c) NARROW) && negb (isOccupied c)) eqn:Eb; [|eauto].
    apply andb_prop in Eb. destruct Eb as [_ Eo]. apply negb_true_iff in Eo.
    assert (Hfj : fr j) by (eapply frame_free_inv; [exact G|exists c; split; assumption]).
    rewrite (fX_solve _ _ _ _ j F1 Hfj). cbn [bind]. destruct (isTimeBetterThan _ _); [|eauto].
    destruct (updCell_in g j c (fun c => with_val c (ox (eik dims (f j) (times g) j))) Hc) as [g1 H1].
    unfold setArrivalTime. rewrite H1. cbn [bind].
    assert (Hc1 : getCell g1 j = Ok (with_val c (ox (eik dims (f j) (times g) j)))) by (rewrite (updCell_get _ _ _ _ j H1), Z.eqb_refl, Hc; reflexivity).
    destruct (updCell_in g1 j _ (fun c => with_state c NARROW) Hc1) as [g2 H2]. unfold setState. rewrite H2. cbn [bind]. eauto. }
  destruct Hex as [s' Hs']. exists s'. split; [exact Hs'|].
  pose proof (fx_neighbor dims Hd2 Hlt init Hrng g0 Hg0 Hreal Hfresh e He X HX x L j Rm (g, ins) s' F1 Hjx Hs') as FX'. cbn [fst snd] in FX'.
  pose proof Hs' as H. unfold fim_neighbor in H. apply bind_ok in H. destruct H as [c [Hc H]].
  (* unchanged state: j may be dropped from the remaining cells *)
  assert (Hdrop : s' = (g, ins) -> (fr j -> ~ In j init -> ~ In j (ins ++ L) -> sett (excl (ins ++ L) (times g)) j) ->
    FT (fst s') (snd s' ++ L) Rm (fun y => y = x) /\
    quiet g (fst s') (forall y, In y (snd s') -> In y ins \/ lowo top (times (fst s') y) = None)).
  { intros -> Hj. cbn [fst snd] in *. split; [|right; split; [reflexivity|split; [reflexivity|auto]]].
    constructor; [exact FX'| |exact F3].
    intros i Hi Hfi Hni HnL HnR. destruct (Z.eq_dec i j) as [->|Hne]; [auto|]. apply F2; auto. intros [E|E]; [congruence|contradiction]. }
  destruct (fmstate_eqb (c_state c) NARROW) eqn:Es; cbn [negb andb] in H.
  { injection H as <-. apply Hdrop; [reflexivity|]. intros _ _ Hn. exfalso. apply Hn.
    destruct (li_nar _ _ _ _ _ (fx_li _ _ _ _ _ _ _ _ F1) j c Hc) as [Q|Q]; [|exact Q|contradiction]. destruct (c_state c); congruence || discriminate. }
  destruct (isOccupied c) eqn:Eo; cbn [negb] in H.
  { injection H as <-. apply Hdrop; [reflexivity|]. intros Hfj _ _. exfalso.
    apply (frame_free _ _ _ _ G) in Hfj. destruct Hfj as [c' [Hc' Ho']]. congruence. }
  assert (Hfj : fr j) by (eapply frame_free_inv; [exact G|exists c; split; assumption]).
  rewrite (fX_solve _ _ _ _ j F1 Hfj) in H. cbn [bind] in H.
  destruct (isTimeBetterThan (ox (eik dims (f j) (times g) j)) (c_val c)) eqn:Eb.
  - apply bind_ok in H. destruct H as [g1 [H1 H]]. apply bind_ok in H. destruct H as [g2 [H2 H]]. injection H as <-. cbn [fst snd] in *.
    assert (Et : times g2 = times g1) by (eapply times_upd_keep; [exact H2|reflexivity]).
    assert (Ev2 : ev init g0 g2) by exact (fx_ev _ _ _ _ _ _ _ _ FX').
    assert (Ev1 : ev init g0 g1).
    { eapply setval_free; [exact (fx_ev _ _ _ _ _ _ _ _ F1)|exact Hc|exact Eo| |exact H1]. eapply fX_solve; eauto. }
    destruct (ev_above dims init Hd2 Hlt X g0 g1 Hg0 Hreal HX Hfresh Ev1) as [A1 _].
    (* the relaxation *)
    assert (HjL : ~ In j (ins ++ L)).
    { intros Hin. apply (li_in _ _ _ _ _ (fx_li _ _ _ _ _ _ _ _ F1)) in Hin. destruct Hin as [_ [_ [c' [Hc' Hs2]]]].
      assert (c' = c) by congruence. subst c'. rewrite Hs2 in Es. discriminate. }
    destruct (eik dims (f j) (times g) j) as [u|] eqn:Ee; cbn [ox] in *; [|rewrite inf_not_better in Eb; discriminate].
    assert (Hju : times g1 j = Some u) by (rewrite (times_set _ _ _ _ H1); apply upd_same).
    split.
    + constructor; [exact FX'| |].
      * intros i Hi Hfi Hni HnL HnR. rewrite Et.
        assert (Hij : i <> j). { intros ->. apply HnL. rewrite <- app_assoc. apply in_or_app. right. left. reflexivity. }
        assert (HnL' : ~ In i (ins ++ L)). { intros Hin. apply HnL. rewrite <- app_assoc. apply in_app_or in Hin. apply in_or_app. destruct Hin; [left|right; right]; assumption. }
        assert (HnR' : ~ In i (j :: Rm)). { intros [Q|Q]; [congruence|contradiction]. }
        eapply sett_fewer; [exact Hi| | |apply (F2 i Hi Hfi Hni HnL' HnR')].
        -- rewrite !excl_out by assumption. eapply times_other; eauto.
        -- intros k _. destruct (in_dec Z.eq_dec k ((ins ++ [j]) ++ L)) as [Hk|Hk]; [right; apply excl_in, Hk|left].
           assert (Hkj : k <> j). { intros ->. apply Hk. rewrite <- app_assoc. apply in_or_app. right. left. reflexivity. }
           rewrite !excl_out; [eapply times_other; eauto| |exact Hk].
           intros Hin. apply Hk. rewrite <- app_assoc. apply in_app_or in Hin. apply in_or_app. destruct Hin; [left|right; right]; assumption.
      * intros i Hi. rewrite <- app_assoc in Hi. apply in_app_or in Hi. destruct Hi as [Hi|[<-|Hi]];
          [apply F3, in_or_app; auto| |apply F3, in_or_app; auto].
        apply (finite_reach g1 j u Ev1 Hju).
    + assert (Hb : better u (times g j)) by (apply (better_val g j c u A Hc), Eb).
      destruct (relax_mu dims f gam Hg_pos Hg_m K (times g) (times g1) j (Hg_f j Hfj) (Hf j Hfj) Hjr
        (fun t => times_nonneg g j t A) (fun t => times_nonneg g1 j t A1)) as [HR|[HR1 [HR2 HR3]]].
      { split; [rewrite Hju; symmetry; exact Ee|]. intros k Hk. eapply times_other; eauto. }
      * left. rewrite Et. exact HR.
      * right. rewrite Et. split; [exact HR1|]. split; [exact HR2|]. intros y Hy. apply in_app_or in Hy.
        destruct Hy as [Hy|[<-|[]]]; [left; exact Hy|right]. rewrite HR2.
        destruct HR3 as [Q|Q]; [|exact Q]. exfalso. rewrite Hju in Q. rewrite <- Q in Hb. cbn in Hb. pose proof Rmargin_pos. lra.
  - injection H as <-. apply Hdrop; [reflexivity|]. intros _ Hni HnL.
    eapply sett_fewer; [exact Hjr| | |apply (sett_not_better dims Hd2 g0 Hreal e He); [exact Hfj|exact Hjr|]].
    + apply excl_out, HnL.
    + intros k _. unfold excl. destruct (in_dec Z.eq_dec k (ins ++ L)); auto.
    + intros u Hu Hb. rewrite Hu in Eb. cbn [ox] in Eb. apply (better_val g j c u A Hc) in Hb. congruence.
Qed.

Lemma ft_neighbors x L ns : forall s, FT (fst s) (snd s ++ L) ns (fun y => y = x) ->
  (forall j, In j ns -> j <> x /\ 0 <= j < box_size dims) ->
  exists s', foldM fim_neighbor ns s = Ok s' /\ FT (fst s') (snd s' ++ L) [] (fun y => y = x) /\
    quiet (fst s) (fst s') (forall y, In y (snd s') -> In y (snd s) \/ lowo top (times (fst s') y) = None).
Proof.
  induction ns as [|j ns IH]; intros s F Hne; cbn [foldM].
  { exists s. split; [reflexivity|]. split; [exact F|]. right. split; [reflexivity|]. split; [reflexivity|auto]. }
  destruct (Hne j (or_introl eq_refl)) as [H1 H2].
  destruct (ft_neighbor x L j ns s F H1 H2) as [s1 [S1 [F1 Q1]]]. rewrite S1. cbn [bind].
  destruct (IH s1 F1) as [s2 [S2 [F2 Q2]]]; [intros k Hk; apply Hne; right; exact Hk|].
  exists s2. split; [exact S2|]. split; [exact F2|]. eapply quiet_trans; [exact Q1|exact Q2|].
  intros L1 L2 A1 A2 y Hy. destruct (A2 y Hy) as [Hy1|Hy1]; [|right; exact Hy1].
  destruct (A1 y Hy1) as [Hy2|Hy2]; [left; exact Hy2|right]. rewrite L2. exact Hy2.
Qed.

(** a visited cell far above one of its neighbours moves *)
Definition visited_ok (g : grid XR) (x : Z) : Prop :=
  lowo top (times g x) = None -> forall y t, adjacent dims x y -> lowo top (times g y) = Some t -> ~ (t + f x < top)%R.

Lemma visit_moves g x T' : fr x -> 0 <= x < box_size dims ->
  T' = eik dims (f x) (times g) x -> (T' = times g x \/ lowo top (times g x) = None) -> lowo top T' = lowo top (times g x) ->
  visited_ok g x.
Proof.
  intros Hfx Hx HT Hq Hl Hh y t Ha Hy Hlt0.
  assert (Hy' : times g y = Some t /\ (t < top)%R).
  { destruct (times g y) as [s|]; cbn in Hy; [|discriminate]. destruct (Rlt_dec s top); [|discriminate]. injection Hy as <-. auto. }
  destruct Hy' as [Hy1 Hy2].
  (* the minimum in the dimension of y *)
  destruct (adjacent_adjacent_in _ _ _ Ha) as [d [Hd Hyd]].
  pose proof (dmin_spec dims (times g) x d Hp Hx Hd) as Hm. destruct (dmin dims (times g) x d) as [a|] eqn:Ed; cbn in Hm.
  2:{ rewrite (Hm y Hyd) in Hy1. discriminate. }
  destruct Hm as [_ Hm]. pose proof (Hm y t Hyd Hy1) as Hat.
  assert (Hin : In a (upw (times g x) (dmins dims (times g) x))).
  { assert (In a (somes (dmins dims (times g) x))) by (apply in_somes, in_dmins; exists d; auto).
    destruct (times g x) as [p|] eqn:Ep; cbn [upw]; [|assumption]. apply in_below. split; [assumption|].
    rewrite lowo_none in Hh. specialize (Hh p eq_refl). lra. }
  destruct (RFo_le (f x) M gam (Hf x Hfx) Rmargin_pos Hg_pos (Hg_f x Hfx) Hg_m _ _ Hin) as [u [Hu1 Hu2]].
  rewrite eik_RFo, Hu1 in HT. rewrite HT, Hh in Hl. cbn in Hl. destruct (Rlt_dec u top); [discriminate|lra].
Qed.

Lemma conv_eq (a b : XR) (oa ob : option R) : a = ox oa -> b = ox ob -> oa = ob -> oa <> None -> nleb (nabs (nsub a b)) (XFin e : XR) = true.
Proof.
  intros -> -> <- Hn. destruct oa as [p|]; [|congruence]. cbn. unfold Rleb. destruct (Rle_dec _ _) as [L|L]; [reflexivity|].
  exfalso. apply L. replace (p + - p)%R with 0%R by ring. rewrite Rabs_R0. exact He.
Qed.

Lemma ft_pass goal after : forall g before stop ub, FT g (before ++ after) [] (fun _ => False) ->
  exists g' l' stop' ub', fim_pass (XFin e : XR) goal g before after stop ub = Ok (g', l', stop', ub') /\
    FT g' l' [] (fun _ => False) /\
    quiet g g' ((forall y, In y l' -> In y before \/ lowo top (times g' y) = None) /\ (forall x, In x after -> visited_ok g x)).
Proof.
  induction after as [|x r IH]; intros g before stop ub F; cbn [fim_pass].
  { rewrite app_nil_r in F. exists g, before, stop, ub. split; [reflexivity|]. split; [exact F|].
    right. split; [reflexivity|]. split; [reflexivity|]. split; [auto|intros x []]. }
  destruct F as [F0 Fs Fr].
  assert (HxL : In x (before ++ x :: r)) by (apply in_app_iff; right; left; reflexivity).
  destruct (fX_ok _ _ _ _ F0) as [A [B' [C [D G]]]].
  destruct (li_in _ _ _ _ _ (fx_li _ _ _ _ _ _ _ _ F0) x HxL) as [Hfx _].
  pose proof (fr_rng x Hfx) as Hxr. pose proof (fx_ni _ _ _ _ _ _ _ _ F0 x HxL) as Hni.
  destruct (frame_free _ _ _ _ G Hfx) as [cx [Hcx Hox]].
  pose proof (fX_solve _ _ _ _ x F0 Hfx) as Hq.
  unfold getArrivalTime. rewrite Hcx. cbn [bind]. rewrite Hq. cbn [bind].
  set (q := ox (eik dims (f x) (times g) x)) in *.
  destruct (updCell_in g x cx (fun c => with_val c q) Hcx) as [g1 H1]. change (setArrivalTime g x q = Ok g1) in H1. rewrite H1. cbn [bind].
  assert (Hev1 : ev init g0 g1) by (eapply setval_free; [exact (fx_ev _ _ _ _ _ _ _ _ F0)|exact Hcx|exact Hox|exact Hq|exact H1]).
  assert (HLI1 : LI init g0 g1 (before ++ x :: r) (fun _ => False)).
  { apply (LI_val init g0 g _ _ x q); [exact (fx_li _ _ _ _ _ _ _ _ F0)|right; exists cx; split; assumption|exact H1]. }
  assert (F1 : FX g1 (before ++ x :: r) [] (fun _ => False)).
  { exact (fx_set dims Hd2 init g0 e g (before ++ x :: r) [] (fun _ => False) x q g1 F0 HxL Hev1 HLI1 H1). }
  destruct (relax_quiet g g1 _ _ _ _ _ _ x q F0 F1 Hfx eq_refl H1) as [Hx1 Qx].
  assert (Hexcl : forall k, excl (before ++ x :: r) (times g1) k = excl (before ++ x :: r) (times g) k).
  { intros k. unfold excl. destruct (in_dec Z.eq_dec k (before ++ x :: r)) as [Hk|Hk]; [reflexivity|].
    eapply times_other; [exact H1|]. intros ->. contradiction. }
  assert (FT1 : FT g1 (before ++ x :: r) [] (fun _ => False)).
  { constructor; [exact F1| |exact Fr]. intros i Hi Hfi Hii HnL HnR.
    eapply sett_fewer; [exact Hi|apply Hexcl|intros j _; left; apply Hexcl|]. apply Fs; auto. }
  assert (Hpx : c_val cx = ox (times g x)).
  { rewrite (times_val g x cx A Hcx). reflexivity. }
  destruct (nleb (nabs (nsub (c_val cx) q)) (XFin e : XR)) eqn:Ec.
  - pose proof Ec as Ec'. apply conv_X in Ec'. destruct Ec' as [p' [q' [Ep [Eq Hab]]]].
    assert (Hns : getNeighbors (g_sh g1) x = Ok (nbrs dims x)).
    { destruct (fX_ok _ _ _ _ F1) as [_ [[Hsh _] _]]. rewrite Hsh. apply getNeighbors_eq; auto. }
    rewrite Hns. cbn [bind].
    assert (Hset : sett (times g1) x).
    { destruct (eik dims (f x) (times g) x) as [q2|] eqn:Ee; unfold q in Eq; cbn [ox] in Eq; [|discriminate].
      apply (sett_converged dims Hd2 g0 Hreal e He (times g) (times g1) x p' q2); auto.
      - rewrite Hpx in Ep. destruct (times g x) as [w|]; cbn [ox] in Ep; [inversion Ep; reflexivity|discriminate].
      - inversion Eq; subst. exact Hab.
      - intros j Hj. eapply times_other; eauto. intros ->. exact (adjacent_irrefl _ _ Hj). }
    assert (F2 : FT g1 (before ++ r) (nbrs dims x) (fun y => y = x)).
    { constructor.
      - constructor; [| |apply (fx_src _ _ _ _ _ _ _ _ F1)| |].
        + apply LI_take. eapply LI_perm; [|exact HLI1]. symmetry. apply Permutation_middle.
        + exact Hev1.
        + intros y Hy. apply (fx_ni _ _ _ _ _ _ _ _ F1). apply in_app_or in Hy. apply in_or_app. destruct Hy; [left|right; right]; assumption.
        + intros i Hi Hfi Hii. destruct (Z.eq_dec i x) as [->|Hne]; [left; exact Hset|].
          destruct (fx_cov _ _ _ _ _ _ _ _ F1 i Hi Hfi Hii) as [S|[S|[[k [K1 K2]]|[]]]]; auto.
          * right; left. apply in_app_or in S. apply in_or_app. destruct S as [S|[S|S]]; [auto|congruence|auto].
          * destruct (Z.eq_dec k x) as [->|Hkx].
            -- right; right; right. apply nbrs_spec; auto. apply adjacent_sym, K2.
            -- right; right; left. exists k. split; [|exact K2]. apply in_app_or in K1. apply in_or_app. destruct K1 as [S|[S|S]]; [auto|congruence|auto].
      - intros i Hi Hfi Hii HnL HnR. destruct (Z.eq_dec i x) as [->|Hne].
        + eapply sett_fewer; [exact Hi|apply excl_out, HnL| |exact Hset]. intros j _. unfold excl. destruct (in_dec Z.eq_dec j (before ++ r)); auto.
        + assert (HnL' : ~ In i (before ++ x :: r)).
          { intros Hin. apply HnL. apply in_app_or in Hin. apply in_or_app. destruct Hin as [Hin|[Hin|Hin]]; [auto|congruence|auto]. }
          eapply sett_fewer; [exact Hi| | |exact (ft_s _ _ _ _ FT1 i Hi Hfi Hii HnL' (fun z => z))].
          * rewrite !excl_out by assumption. reflexivity.
          * intros j Hj. left. unfold excl. destruct (in_dec Z.eq_dec j (before ++ r)) as [J|J], (in_dec Z.eq_dec j (before ++ x :: r)) as [J'|J']; try reflexivity.
            -- exfalso. apply J'. apply in_app_or in J. apply in_or_app. destruct J; [left|right; right]; assumption.
            -- exfalso. apply in_app_or in J'. destruct J' as [J'|[J'|J']]; [apply J, in_or_app; auto| |apply J, in_or_app; auto].
               subst j. apply HnR. apply nbrs_spec; auto. apply adjacent_sym, Hj.
      - intros i Hi. apply Fr. apply in_app_or in Hi. apply in_or_app. destruct Hi; [left|right; right]; assumption. }
    assert (Hnx : forall j, In j (nbrs dims x) -> j <> x /\ 0 <= j < box_size dims).
    { intros j Hj. apply nbrs_spec in Hj; auto. split; [intros ->; exact (adjacent_irrefl _ _ Hj)|]. exact (proj2 (adjacent_range dims x j Hj)). }
    destruct (ft_neighbors x (before ++ r) (nbrs dims x) (g1, []) F2 Hnx) as [[g2 ins] [Hfold [F3 Q2]]]. cbn [fst snd] in F3, Q2.
    rewrite Hfold. cbn [bind].
    assert (Hxc : exists c2, getCell g2 x = Ok c2).
    { apply (getCell_in dims); [|exact Hxr]. apply (fX_ok _ _ _ _ (ft_x _ _ _ _ F3)). }
    destruct Hxc as [c2 Hc2]. destruct (updCell_in g2 x c2 (fun c => with_state c FROZEN) Hc2) as [g3 H3].
    change (setState g2 x FROZEN = Ok g3) in H3. rewrite H3. cbn [bind]. cbv zeta.
    assert (Et3 : times g3 = times g2) by (eapply times_upd_keep; [exact H3|reflexivity]).
    assert (F4 : FT g3 ((before ++ ins) ++ r) [] (fun _ => False)).
    { eapply ft_meta; [exact F3| |exact Et3|].
      2:{ intros y. rewrite !in_app_iff. tauto. }
      eapply (fx_meta dims init g0 e g2 g3 (ins ++ before ++ r)); [exact (ft_x _ _ _ _ F3)| | | |].
      - assert (HL4 : LI init g0 g3 (ins ++ before ++ r) (fun y => y = x /\ y <> x)).
        { eapply LI_freeze; [exact (fx_li _ _ _ _ _ _ _ _ (ft_x _ _ _ _ F3))| |exact H3].
          intros Hin. apply (li_in _ _ _ _ _ (fx_li _ _ _ _ _ _ _ _ (ft_x _ _ _ _ F3))) in Hin. tauto. }
        eapply LI_perm; [|eapply LI_ext; [|exact HL4]; intros; tauto].
        rewrite !app_assoc. apply Permutation_app_tail. apply Permutation_app_comm.
      - eapply setst; [exact (fx_ev _ _ _ _ _ _ _ _ (ft_x _ _ _ _ F3))|exact H3].
      - exact Et3.
      - intros y. rewrite !in_app_iff. tauto. }
    destruct (IH g3 (before ++ ins) (stop || (x =? goal)) (ub || match before ++ ins with [] => true | _ => false end) F4)
      as [g' [l' [stop' [ub' [HP [FP QP]]]]]].
    exists g', l', stop', ub'. split; [exact HP|]. split; [exact FP|].
    assert (Q2' : quiet g1 g3 (forall y, In y ins -> lowo top (times g3 y) = None)).
    { unfold quiet in *. rewrite Et3. destruct Q2 as [Q2|[Q2 [Q3 Q4]]]; [left; exact Q2|right]. split; [exact Q2|]. split; [exact Q3|].
      intros y Hy. destruct (Q4 y Hy) as [[]|Hq4]. exact Hq4. }
    eapply quiet_trans; [eapply quiet_trans; [exact Qx|exact Q2'|]|exact QP|].
    + intros L1 L2 P1 P2. exact (conj L1 (conj L2 (conj P1 P2))).
    + intros L3 L4 [L1 [L2 [P1 P2]]] [P3 P4]. split.
      * intros y Hy. destruct (P3 y Hy) as [Hy1|Hy1]; [|right; exact Hy1]. apply in_app_or in Hy1. destruct Hy1 as [Hy1|Hy1]; [left; exact Hy1|right].
        rewrite L4. apply P2, Hy1.
      * intros y [<-|Hy].
        -- eapply visit_moves; [exact Hfx|exact Hxr|reflexivity|rewrite <- Hx1; exact P1|rewrite <- Hx1; apply L1].
        -- specialize (P4 y Hy). intros Hh z t Hz Hzt. apply (P4 ltac:(rewrite L3; exact Hh) z t Hz). rewrite L3; exact Hzt.
  - assert (F1' : FT g1 ((before ++ [x]) ++ r) [] (fun _ => False)) by (rewrite <- app_assoc; exact FT1).
    destruct (IH g1 (before ++ [x]) stop ub F1') as [g' [l' [stop' [ub' [HP [FP QP]]]]]].
    exists g', l', stop', ub'. split; [exact HP|]. split; [exact FP|]. eapply quiet_trans; [exact Qx|exact QP|].
    intros L1 L2 P1 [P3 P4]. split.
    + intros y Hy. destruct (P3 y Hy) as [Hy1|Hy1]; [|right; exact Hy1]. apply in_app_or in Hy1. destruct Hy1 as [Hy1|[<-|[]]]; [left; exact Hy1|right].
      rewrite L2, L1. destruct P1 as [P1|P1]; [|exact P1].
      destruct (odec (times g x) None) as [En|En]; [rewrite En; reflexivity|exfalso].
      rewrite (conv_eq (c_val cx) q (times g x) (eik dims (f x) (times g) x) Hpx eq_refl) in Ec; [discriminate| |exact En]. congruence.
    + intros y [<-|Hy].
      * eapply visit_moves; [exact Hfx|exact Hxr|reflexivity|rewrite <- Hx1; exact P1|rewrite <- Hx1; apply L1].
      * specialize (P4 y Hy). intros Hh z t Hz Hzt. apply (P4 ltac:(rewrite L1; exact Hh) z t Hz). rewrite L1; exact Hzt.
Qed.


(** connected in [n] steps *)
Inductive reachn : nat -> Z -> Prop :=
| rn_src i : In i init -> reachn 0 i
| rn_step n i j : reachn n i -> adjacent dims i j -> fr j -> reachn (S n) j.

Hypothesis HB : forall i, reach i -> exists n, (n <= B)%nat /\ reachn n i.

Lemma US_in a l u : In a l -> (Rsqr (Rmax (u - a) 0) <= upwind_sum l u)%R.
Proof.
  induction l as [|x r IH]; intros H; [destruct H|]. rewrite US_cons. pose proof (US_nonneg r u). pose proof (Rle_0_sqr (Rmax (u - x) 0)).
  destruct H as [->|H]; [lra|]. specialize (IH H). lra.
Qed.

(** nothing is left in a list in which nothing moves *)
Lemma ft_static g l : FT g l [] (fun _ => False) -> (forall x, In x l -> lowo top (times g x) = None) ->
  (forall x, In x l -> visited_ok g x) -> l = [].
Proof.
  intros F Hh Hv. pose proof Rmargin_pos as HM.
  assert (Path : forall n z, reachn n z -> (n <= B)%nat -> ~ In z l /\ exists t, times g z = Some t /\ (t <= INR n * Cst)%R).
  { intros n z Hz. induction Hz as [z Hz|n y z Hy IH Ha Hfz]; intros Hn.
    - split; [intros Hin; exact (fx_ni _ _ _ _ _ _ _ _ (ft_x _ _ _ _ F) z Hin Hz)|]. exists 0%R.
      split; [apply (fx_src _ _ _ _ _ _ _ _ (ft_x _ _ _ _ F)), Hz|cbn; lra].
    - destruct (IH ltac:(lia)) as [Hyl [t [Ht1 Ht2]]].
      pose proof (Hf z Hfz) as Hfz1. pose proof (Hfmax z Hfz) as Hfz2. pose proof (fr_rng z Hfz) as Hzr.
      assert (HC : (0 < Cst)%R) by lra.
      assert (Hnn : (INR n * Cst + Cst <= INR (S B) * Cst)%R).
      { assert (HS : (INR (S n) <= INR (S B))%R) by (apply le_INR; lia).
        pose proof (Rmult_le_compat_r Cst _ _ (Rlt_le _ _ HC) HS) as HS2. rewrite (S_INR n) in HS2. lra. }
      assert (Hty : lowo top (times g y) = Some t).
      { rewrite Ht1. cbn. destruct (Rlt_dec t top); [reflexivity|]. lra. }
      assert (Hzl : ~ In z l).
      { intros Hin. apply (Hv z Hin (Hh z Hin) y t (adjacent_sym _ _ _ Ha) Hty). lra. }
      split; [exact Hzl|].
      destruct (in_dec Z.eq_dec z init) as [Hzi|Hzi].
      { exists 0%R. split; [apply (fx_src _ _ _ _ _ _ _ _ (ft_x _ _ _ _ F)), Hzi|]. pose proof (pos_INR (S n)). nra. }
      pose proof (ft_s _ _ _ _ F z Hzr Hfz Hzi Hzl (fun w => w)) as Hs. unfold FIMX.sett in Hs.
      rewrite (excl_out l (times g) z Hzl) in Hs.
      destruct (times g z) as [s|].
      + exists s. split; [reflexivity|]. rewrite S_INR. destruct (Rle_dec s ((INR n + 1) * Cst)) as [L|L]; [exact L|exfalso].
        destruct (adjacent_adjacent_in _ _ _ (adjacent_sym _ _ _ Ha)) as [d [Hd Hyd]].
        pose proof (dmin_spec dims (excl l (times g)) z d Hp Hzr Hd) as Hm. destruct (dmin dims (excl l (times g)) z d) as [a|] eqn:Ed; cbn in Hm.
        2:{ specialize (Hm y Hyd). rewrite excl_out in Hm by exact Hyl. congruence. }
        destruct Hm as [_ Hm]. assert (Hat : (a <= t)%R) by (apply (Hm y t Hyd); rewrite excl_out by exact Hyl; exact Ht1).
        assert (Hin : In a (somes (dmins dims (excl l (times g)) z))) by (apply in_somes, in_dmins; exists d; auto).
        pose proof (US_in a _ (s - (2 * M + e)) Hin) as HU. rewrite Rmax_left in HU by lra. unfold Rsqr in HU.
        assert (f z < s - (2 * M + e) - a)%R by nra. nra.
      + exfalso. specialize (Hs y (adjacent_sym _ _ _ Ha)). rewrite excl_out in Hs by exact Hyl. congruence. }
  destruct l as [|x l]; [reflexivity|exfalso].
  destruct (HB x (ft_r _ _ _ _ F x (or_introl eq_refl))) as [n [Hn Hr]].
  apply (Path n x Hr Hn). left; reflexivity.
Qed.

Lemma ft_loop goal : forall m g l stop ub, FT g l [] (fun _ => False) -> (MU (times g) <= m)%nat ->
  exists k r, forall fuel, (k <= fuel)%nat -> fim_loop fuel (XFin e : XR) goal g l stop ub = Ok r.
Proof.
  induction m as [m IH] using (well_founded_induction lt_wf). intros g l stop ub F Hm.
  destruct stop. { exists O, (g, l, ub). intros [|fuel] _; reflexivity. }
  destruct l as [|x l]. { exists O, (g, [], ub). intros [|fuel] _; reflexivity. }
  destruct (ft_pass goal (x :: l) g [] false ub F) as [g1 [l1 [st1 [ub1 [P1 [F1 Q1]]]]]].
  assert (Hstep : forall k r, (forall fuel, (k <= fuel)%nat -> fim_loop fuel (XFin e : XR) goal g1 l1 st1 ub1 = Ok r) ->
    exists k r, forall fuel, (k <= fuel)%nat -> fim_loop fuel (XFin e : XR) goal g (x :: l) false ub = Ok r).
  { intros k r H. exists (S k), r. intros [|fuel] Hfuel; [lia|]. cbn [fim_loop]. rewrite P1. cbn [bind]. apply H. lia. }
  destruct Q1 as [Q1|[Q1 [Q2 [Q3 _]]]].
  { destruct (IH (MU (times g1)) ltac:(lia) g1 l1 st1 ub1 F1 (le_n _)) as [k [r H]]. eapply Hstep; exact H. }
  destruct st1. { apply (Hstep O (g1, l1, ub1)). intros [|fuel] _; reflexivity. }
  destruct l1 as [|y l1]. { apply (Hstep O (g1, [], ub1)). intros [|fuel] _; reflexivity. }
  destruct (ft_pass goal (y :: l1) g1 [] false ub1 F1) as [g2 [l2 [st2 [ub2 [P2 [F2 R1]]]]]].
  destruct R1 as [R1|[R1 [R2 [_ R4]]]].
  - destruct (IH (MU (times g2)) ltac:(lia) g2 l2 st2 ub2 F2 (le_n _)) as [k [r H]].
    apply (Hstep (S k) r). intros [|fuel] Hfuel; [lia|]. cbn [fim_loop]. rewrite P2. cbn [bind]. apply H. lia.
  - exfalso. assert (E : y :: l1 = []); [|discriminate]. apply (ft_static g1 _ F1); [|exact R4].
    intros z Hz. destruct (Q3 z Hz) as [[]|Hz']; exact Hz'.
Qed.

Lemma init_total ii : forall s : fim_state (N := XR), incl ii init -> frame (fun i => In i init) g0 (fi_g s) ->
  (forall i, In i (fi_l s) -> reach i) ->
  exists s', foldM fim_init1 ii s = Ok s' /\ forall i, In i (fi_l s') -> reach i.
Proof.
  induction ii as [|i ii IH]; intros s Hi HF HR; cbn [foldM]; [eauto|].
  assert (Hii : In i init) by (apply Hi; left; reflexivity). pose proof (Hrng i Hii) as Hir.
  assert (HG : grid_ok dims (fi_g s)) by (eapply frame_grid_ok; eauto).
  assert (H1 : exists s1, fim_init1 s i = Ok s1 /\ (frame (fun i => In i init) g0 (fi_g s1) /\ forall i, In i (fi_l s1) -> reach i)).
  { unfold fim_init1. destruct (getCell_in dims _ i HG Hir) as [c Hc].
    destruct (updCell_in _ i c (fun c => with_val c (n0 : XR)) Hc) as [g1 H1]. unfold setArrivalTime. rewrite H1. cbn [bind].
    assert (HF1 : frame (fun i => In i init) g0 g1) by (eapply frame_trans; [exact HF|]; eapply setArrivalTime_frame; [exact H1|left; exact Hii]).
    assert (HG1 : grid_ok dims g1) by (eapply frame_grid_ok; eauto).
    destruct (getCell_in dims _ i HG1 Hir) as [c1 Hc1].
    destruct (updCell_in _ i c1 (fun c => with_state c FROZEN) Hc1) as [g2 H2]. unfold setState at 1. rewrite H2. cbn [bind].
    assert (HF2 : frame (fun i => In i init) g0 g2) by (eapply frame_trans; [exact HF1|]; eapply setState_frame; exact H2).
    assert (HG2 : grid_ok dims g2) by (eapply frame_grid_ok; eauto).
    rewrite (proj1 HG2), getNeighbors_eq by auto. cbn [bind].
    apply (foldM_inv (fun s : fim_state (N := XR) => frame (fun i => In i init) g0 (fi_g s) /\ forall i, In i (fi_l s) -> reach i)); [split; assumption|].
    intros s3 j Hj [HF3 HR3]. apply nbrs_spec in Hj; [|exact Hp|exact Hir].
    assert (HG3 : grid_ok dims (fi_g s3)) by (eapply frame_grid_ok; eauto).
    destruct (getCell_in dims _ j HG3 (proj2 (adjacent_range _ _ _ Hj))) as [c3 Hc3]. rewrite Hc3. cbn [bind].
    destruct (fmstate_eqb (c_state c3) OPEN && negb (isOccupied c3)) eqn:Eo; [|eauto].
    apply andb_true_iff in Eo. destruct Eo as [_ Eo]. apply negb_true_iff in Eo.
    destruct (updCell_in _ j c3 (fun c => with_state c NARROW) Hc3) as [g4 H4]. unfold setState. rewrite H4. cbn [bind].
    eexists. split; [reflexivity|]. cbn [fi_g fi_l]. split; [eapply frame_trans; [exact HF3|]; eapply setState_frame; exact H4|].
    assert (Hjr : reach j).
    { eapply reach_step; [apply reach_src; exact Hii|exact Hj|]. eapply frame_free_inv; [exact HF3|]. exists c3. split; assumption. }
    intros k Hk. cbn in Hk. idtac. first [destruct Hk as [<-|Hk]; auto | apply in_app_or in Hk; destruct Hk as [Hk|[<-|[]]]; auto]. }
  destruct H1 as [s1 [H1 [HF1 HR1]]]. rewrite H1. cbn [bind]. apply IH; [|exact HF1|exact HR1]. intros k Hk. apply Hi. right; exact Hk.
Qed.

Theorem fim_terminates goal :
  exists k r, forall fuel, (k <= fuel)%nat -> fim_run fuel (XFin e : XR) goal init g0 = Ok r.
Proof.
  destruct (init_total init (mkFim g0 []) (incl_refl _) (frame_refl _ _) (fun i (H : In i []) => False_ind _ H)) as [s [Hs Hrs]].
  unfold fim_run. rewrite Hs. cbn [bind].
  destruct (fim_init_lists dims Hp Hlt init g0 Hg0 Hsep Hrng init _ _ (PI_start init g0 Hopen) (incl_refl _) Hs) as [[HI [Hni Hfz]] [_ L]].
  assert (Hrun : fim_run 0 (XFin e : XR) goal init g0 = fim_loop 0 (XFin e : XR) goal (fi_g s) (fi_l s) false false).
  { unfold fim_run. rewrite Hs. reflexivity. }
  assert (Ht : forall k, times (fi_g s) k = if in_dec Z.eq_dec k init then Some 0%R else None).
  { intros k. rewrite (init_times _ _ _ Hs k). destruct (in_dec Z.eq_dec k init); [reflexivity|]. cbn [fi_g].
    unfold times, getArrivalTime. destruct (getCell g0 k) as [c|] eqn:Ec; cbn [bind]; [|reflexivity]. rewrite (Hfresh k c Ec). reflexivity. }
  assert (Hsett : forall i, 0 <= i < box_size dims -> fr i -> ~ In i init -> sett (times (fi_g s)) i \/ In i (fi_l s)).
  { intros i Hi Hfi Hii. destruct (existsb (fun j => if in_dec Z.eq_dec j init then true else false) (nbrs dims i)) eqn:Ex.
    + apply existsb_exists in Ex. destruct Ex as [j [Hj Hin]]. destruct (in_dec Z.eq_dec j init) as [Hj2|]; [|discriminate].
      right. apply (L j i Hj2); [|exact Hfi]. apply adjacent_sym. apply nbrs_spec; auto.
    + left. unfold FIMX.sett. rewrite Ht. destruct (in_dec Z.eq_dec i init); [contradiction|].
      intros j Hj. rewrite Ht. destruct (in_dec Z.eq_dec j init) as [Hj2|]; [|reflexivity]. exfalso.
      assert (existsb (fun j => if in_dec Z.eq_dec j init then true else false) (nbrs dims i) = true); [|congruence].
      apply existsb_exists. exists j. split; [apply nbrs_spec; auto|]. destruct (in_dec Z.eq_dec j init); [reflexivity|contradiction]. }
  apply (ft_loop goal (MU (times (fi_g s)))); [|lia]. constructor.
  - constructor; auto.
    + eapply fim_init_ev; eauto.
    + intros i Hi. rewrite Ht. destruct (in_dec Z.eq_dec i init); [reflexivity|contradiction].
    + intros i Hi Hfi Hii. destruct (Hsett i Hi Hfi Hii); auto.
  - intros i Hi Hfi Hii HnL _. destruct (Hsett i Hi Hfi Hii) as [S|S]; [|contradiction].
    eapply sett_fewer; [exact Hi|apply excl_out, HnL| |exact S]. intros j _. unfold excl. destruct (in_dec Z.eq_dec j (fi_l s)); auto.
  - exact Hrs.
Qed.
End FT.

(** Exact.v - the discretised Eikonal equation has exactly one solution on every
    map (existence by a Dijkstra-like construction, uniqueness by comparison),
    and how solutions up to delta relate to it. *)
From Coq Require Import Reals Lra Permutation.
From Verif Require Import Base BaseFacts NumXR NumLaws Grid GridFacts Spec EikR Solution FMMAbs Relax.
Open Scope Z_scope.

Lemma US_same dims T T' i x : proper dims -> 0 <= i < box_size dims ->
  (forall k s, adjacent dims i k -> (s < x)%R -> (T k = Some s <-> T' k = Some s)) ->
  upwind_sum (somes (dmins dims T i)) x = upwind_sum (somes (dmins dims T' i)) x.
Proof.
  intros Hp Hi H. apply Rle_antisym; apply US_le; auto; intros k s Hk Hs Hlt; exists s; split; try lra; apply (H k s Hk Hlt); exact Hs.
Qed.

Section Exact.
Variables (dims : list Z) (init : list Z) (fr : Z -> Prop) (f : Z -> R).
Hypothesis Hp : proper dims.
Hypothesis Hf : forall i, fr i -> (0 < f i)%R.
Hypothesis Hfr_dec : forall i, {fr i} + {~ fr i}.
Hypothesis Hrng : forall i, In i init -> 0 <= i < box_size dims.

Notation US T i := (upwind_sum (somes (dmins dims T i))).
Notation src := (fun i => In i init).

Record EInv (T : time_map) : Prop := {
  e_src : forall i, In i init -> T i = Some 0%R;
  e_rng : forall i t, T i = Some t -> 0 <= i < box_size dims;
  e_nn : forall i t, T i = Some t -> (0 <= t)%R;
  e_eq : forall i t, T i = Some t -> ~ In i init -> fr i /\ US T i t = (f i * f i)%R;
  e_front : forall i r, 0 <= i < box_size dims -> fr i -> T i = None -> US T i r = (f i * f i)%R ->
      forall k s, T k = Some s -> (s <= r)%R
}.

(** unreached free cells with a reached neighbour *)
Definition cand (T : time_map) (i : Z) : Prop := T i = None /\ fr i /\ somes (dmins dims T i) <> [].

Lemma cand_dec T i : {cand T i} + {~ cand T i}.
Proof.
  unfold cand. destruct (T i); [right; intros [H _]; discriminate|].
  destruct (Hfr_dec i); [|right; tauto]. destruct (somes (dmins dims T i)); [right; intros [_ [_ H]]; congruence|].
  left. repeat split; auto. discriminate.
Defined.

Lemma min_cand T l : (exists i, In i l /\ cand T i) ->
  exists i r, In i l /\ cand T i /\ US T i r = (f i * f i)%R /\
    forall j r', In j l -> cand T j -> US T j r' = (f j * f j)%R -> (r <= r')%R.
Proof.
  induction l as [|a l IH]; intros [i [Hi Hc]]; [destruct Hi|].
  assert (Hroot : forall k, cand T k -> exists r, US T k r = (f k * f k)%R).
  { intros k [_ [Hk Hne]]. apply US_root_exists; auto. }
  assert (Huniq : forall k r1 r2, cand T k -> US T k r1 = (f k * f k)%R -> US T k r2 = (f k * f k)%R -> r1 = r2).
  { intros k r1 r2 [_ [Hk _]]. apply US_root_unique. auto. }
  assert (Hdec : (exists i, In i l /\ cand T i) \/ ~ exists i, In i l /\ cand T i).
  { clear -Hfr_dec. induction l as [|b l IH]; [right; intros [? [[] _]]|].
    destruct (cand_dec T b) as [H|H]; [left; exists b; split; [left; reflexivity|exact H]|].
    destruct IH as [[k [K1 K2]]|K]; [left; exists k; split; [right|]; auto|].
    right. intros [k [[->|K1] K2]]; [exact (H K2)|]. apply K. eauto. }
  destruct Hdec as [He|He].
  - destruct (IH He) as [k [r [Hk [Hck [Hr Hmin]]]]].
    destruct (cand_dec T a) as [Ha|Ha].
    + destruct (Hroot a Ha) as [ra Hra]. destruct (Rle_dec r ra) as [L|L].
      * exists k, r. split; [right; exact Hk|]. split; [exact Hck|]. split; [exact Hr|].
        intros j r' [<-|Hj] Hcj Hr'; [|eapply Hmin; eauto]. rewrite (Huniq a r' ra Ha Hr' Hra). exact L.
      * exists a, ra. split; [left; reflexivity|]. split; [exact Ha|]. split; [exact Hra|].
        intros j r' [<-|Hj] Hcj Hr'; [rewrite (Huniq a r' ra Ha Hr' Hra); lra|]. pose proof (Hmin j r' Hj Hcj Hr'). lra.
    + exists k, r. split; [right; exact Hk|]. split; [exact Hck|]. split; [exact Hr|].
      intros j r' [<-|Hj] Hcj Hr'; [contradiction|eapply Hmin; eauto].
  - destruct Hi as [->|Hi]; [|exfalso; apply He; eauto].
    destruct (Hroot i Hc) as [r Hr]. exists i, r. split; [left; reflexivity|]. split; [exact Hc|]. split; [exact Hr|].
    intros j r' [<-|Hj] Hcj Hr'; [rewrite (Huniq i r' r Hc Hr' Hr); lra|]. exfalso; apply He; eauto.
Qed.

Lemma US_pos_has T i r : 0 <= i < box_size dims -> (0 < US T i r)%R -> exists k a, adjacent dims i k /\ T k = Some a /\ (a < r)%R.
Proof.
  intros Hi H.
  destruct (Exists_dec (fun a => (a < r)%R) (somes (dmins dims T i)) (fun a => Rlt_dec a r)) as [E|E].
  - apply Exists_exists in E. destruct E as [a [Ha Hlt]].
    destruct (in_somes_dmins dims Hp T i a Hi Ha) as [k [K1 K2]]. eauto.
  - exfalso. rewrite US_zero in H; [lra|]. intros a Ha.
    destruct (Rle_dec r a) as [L|L]; [exact L|]. exfalso; apply E, Exists_exists. exists a; split; [exact Ha|lra].
Qed.

Lemma einv_step T i r : EInv T -> 0 <= i < box_size dims -> cand T i -> US T i r = (f i * f i)%R ->
  (forall j r', 0 <= j < box_size dims -> cand T j -> US T j r' = (f j * f j)%R -> (r <= r')%R) ->
  EInv (upd T i r).
Proof.
  intros [A B C D E] Hi Hc Hr Hmin. pose proof Hc as [Hn [Hfi Hne]].
  assert (Hni : ~ In i init) by (intros H; rewrite (A i H) in Hn; discriminate).
  assert (Hmax : forall k s, T k = Some s -> (s <= r)%R) by (intros k s Hk; apply (E i r Hi Hfi Hn Hr k s Hk)).
  assert (Hsame : forall j x, 0 <= j < box_size dims -> (x <= r)%R -> US (upd T i r) j x = US T j x).
  { intros j x Hj Hx. apply US_same; auto. intros k s Hk Hs. destruct (Z.eq_dec k i) as [->|Hki].
    - rewrite upd_same. split; [intros H; injection H as <-; lra|congruence].
    - rewrite upd_other by exact Hki. tauto. }
  constructor.
  - intros k Hk. rewrite upd_other by (intros ->; contradiction). auto.
  - intros k t H. destruct (Z.eq_dec k i) as [->|Hk]; [exact Hi|]. rewrite upd_other in H by exact Hk. eauto.
  - intros k t H. destruct (Z.eq_dec k i) as [->|Hk]; [|rewrite upd_other in H by exact Hk; eauto].
    rewrite upd_same in H. injection H as <-.
    destruct (US_pos_has T i r Hi) as [k [a [_ [Ka Kl]]]]; [rewrite Hr; pose proof (Hf i Hfi); nra|].
    pose proof (C k a Ka). lra.
  - intros k t H Hk. destruct (Z.eq_dec k i) as [->|Hki].
    + rewrite upd_same in H. injection H as <-. split; [exact Hfi|]. rewrite Hsame by (auto; lra). exact Hr.
    + rewrite upd_other in H by exact Hki. rewrite Hsame; [apply D; auto|eauto|eauto].
  - intros j r' Hj Hfj Hnj Hr' k s Hk.
    assert (Hji : j <> i) by (intros ->; rewrite upd_same in Hnj; discriminate).
    rewrite upd_other in Hnj by exact Hji.
    assert (Hle : (r <= r')%R).
    { destruct (Rle_dec r r') as [L|L]; [exact L|exfalso].
      rewrite Hsame in Hr' by (auto; lra).
      assert (Hcj : cand T j).
      { split; [exact Hnj|]. split; [exact Hfj|]. intros He. rewrite He in Hr'. cbn in Hr'. pose proof (Hf j Hfj). nra. }
      pose proof (Hmin j r' Hj Hcj Hr'). lra. }
    destruct (Z.eq_dec k i) as [->|Hki]; [rewrite upd_same in Hk; injection Hk as <-; exact Hle|].
    rewrite upd_other in Hk by exact Hki. pose proof (Hmax k s Hk). lra.
Qed.

Definition open_cells (T : time_map) : list Z :=
  filter (fun i => match T i with None => true | Some _ => false end) (zseq (Z.to_nat (box_size dims))).

Lemma open_upd T i r : 0 <= i < box_size dims -> T i = None -> (length (open_cells (upd T i r)) < length (open_cells T))%nat.
Proof.
  intros Hi Hn. apply filter_lt with (y := i).
  - intros x Hx. destruct (Z.eq_dec x i) as [->|Hne]; [rewrite upd_same in Hx; discriminate|].
    rewrite upd_other in Hx by exact Hne. exact Hx.
  - apply in_zseq. lia.
  - rewrite upd_same. reflexivity.
  - rewrite Hn. reflexivity.
Qed.

Lemma einv_start : EInv (fun i => if in_dec Z.eq_dec i init then Some 0%R else None).
Proof.
  assert (Hv : forall i t, (if in_dec Z.eq_dec i init then Some 0%R else None) = Some t -> In i init /\ t = 0%R).
  { intros i t. destruct (in_dec Z.eq_dec i init); [|discriminate]. intros H; injection H as <-. auto. }
  constructor.
  - intros i Hi. destruct (in_dec Z.eq_dec i init); [reflexivity|contradiction].
  - intros i t H. apply Hv in H. apply Hrng, H.
  - intros i t H. apply Hv in H. destruct H as [_ ->]. lra.
  - intros i t H Hi. apply Hv in H. tauto.
  - intros i r Hi Hfi _ Hr k s Hk. apply Hv in Hk. destruct Hk as [_ ->].
    destruct (US_pos_has (fun i => if in_dec Z.eq_dec i init then Some 0%R else None) i r Hi) as [j [a [_ [Ja Jl]]]]; [rewrite Hr; pose proof (Hf i Hfi); nra|].
    apply Hv in Ja. destruct Ja as [_ ->]. lra.
Qed.

Theorem exact_exists : exists T, exact_solution dims src fr f T.
Proof.
  assert (Hgo : forall n T, (length (open_cells T) < n)%nat -> EInv T -> exists T', exact_solution dims src fr f T').
  { induction n as [|n IH]; intros T Hl HI; [lia|].
    assert (Hcells : forall i, In i (zseq (Z.to_nat (box_size dims))) <-> 0 <= i < box_size dims).
    { intros i. rewrite in_zseq. pose proof (box_size_pos _ Hp). lia. }
    destruct (Exists_dec (cand T) (zseq (Z.to_nat (box_size dims))) (cand_dec T)) as [E|E].
    - apply Exists_exists in E. destruct (min_cand T _ E) as [i [r [Hi [Hc [Hr Hmin]]]]]. apply Hcells in Hi.
      apply (IH (upd T i r)).
      + pose proof (open_upd T i r Hi (proj1 Hc)). lia.
      + apply einv_step; auto. intros j r' Hj. apply Hmin. apply Hcells, Hj.
    - exists T. destruct HI as [A B C D _]. constructor; auto.
      + intros i t ms Ht Hi Hms. rewrite (minima_unique dims T i ms Hp (B i t Ht) Hms). auto.
      + intros i j Hi Hfi Hni Hn Hj. destruct (somes (dmins dims T i)) eqn:Es.
        * eapply (somes_dmins_empty dims Hp); eauto.
        * exfalso. apply E, Exists_exists. exists i. split; [apply Hcells, Hi|].
          repeat split; auto. rewrite Es. discriminate. }
  eapply Hgo; [apply Nat.lt_succ_diag_r|apply einv_start].
Qed.

(** an exact solution is a solution up to every positive delta *)
Lemma exact_solution_delta T delta : (0 < delta)%R -> exact_solution dims src fr f T -> solution dims src fr f delta T.
Proof.
  intros Hd [A B C D E]. split; [|split; [|exact D]].
  - constructor; [exact A|]. intros i t ms Ht Hi Hms. destruct (B i t ms Ht Hi Hms) as [H1 H2]. split; [exact H1|lra].
  - constructor; [exact A| |exact C]. intros i t ms Hi Hfi Hni Ht Hms. destruct (B i t ms Ht Hni Hms) as [_ H2].
    rewrite <- H2. apply US_strict; [lra|]. rewrite H2. pose proof (Hf i Hfi). nra.
Qed.

Lemma le_all_eps x y c : (0 <= c)%R -> (forall d, 0 < d -> x <= y + d * c)%R -> (x <= y)%R.
Proof.
  intros Hc H. destruct (Rle_dec x y) as [L|L]; [exact L|exfalso].
  set (d := ((x - y) / (2 * (c + 1)))%R). assert (Hd : (0 < d)%R) by (apply Rdiv_lt_0_compat; lra).
  specialize (H d Hd). assert (E : (d * (2 * (c + 1)) = x - y)%R) by (unfold d; field; lra). nra.
Qed.

(** no super-solution is below the exact solution *)
Theorem exact_below_super T X : exact_solution dims src fr f X -> super_solution dims src fr f T ->
  (forall i t, T i = Some t -> 0 <= t)%R ->
  forall i t, 0 <= i < box_size dims -> T i = Some t -> exists u, X i = Some u /\ (u <= t)%R.
Proof.
  intros HX HT Hnn i t Hi Ht.
  assert (Hdec : forall i, {In i init} + {~ In i init}) by (intros; apply in_dec, Z.eq_dec).
  destruct (comparison dims src fr f Hp Hf Hdec 1 T X ltac:(lra) Hnn HT (proj1 (proj2 (exact_solution_delta X 1 ltac:(lra) HX))) i t Hi Ht) as [u [Hu _]].
  exists u. split; [exact Hu|]. apply (le_all_eps u t (INR (rank (Z.to_nat (box_size dims)) T i))); [apply pos_INR|].
  intros d Hd.
  destruct (comparison dims src fr f Hp Hf Hdec d T X ltac:(lra) Hnn HT (proj1 (proj2 (exact_solution_delta X d Hd HX))) i t Hi Ht) as [u' [Hu' Hle]].
  assert (u' = u) by congruence. subst. exact Hle.
Qed.

Theorem exact_unique X Y : exact_solution dims src fr f X -> exact_solution dims src fr f Y -> forall i, X i = Y i.
Proof.
  intros HX HY i.
  pose proof (exact_solution_delta X 1 ltac:(lra) HX) as [SX [_ NX]].
  pose proof (exact_solution_delta Y 1 ltac:(lra) HY) as [SY [_ NY]].
  destruct (X i) as [x|] eqn:Ex.
  - pose proof (ex_range _ _ _ _ _ HX i x Ex) as Hi.
    destruct (exact_below_super X Y HY SX NX i x Hi Ex) as [y [Ey Hle]].
    destruct (exact_below_super Y X HX SY NY i y Hi Ey) as [x' [Ex' Hle']].
    assert (x' = x) by congruence. subst. rewrite Ey. f_equal. lra.
  - destruct (Y i) as [y|] eqn:Ey; [|reflexivity].
    pose proof (ex_range _ _ _ _ _ HY i y Ey) as Hi.
    destruct (exact_below_super Y X HX SY NY i y Hi Ey) as [x' [Ex' _]]. congruence.
Qed.

(** a solution up to delta is within delta times the number of cells above it *)
Theorem exact_close delta T X : (0 <= delta)%R -> exact_solution dims src fr f X -> solution dims src fr f delta T ->
  forall i, 0 <= i < box_size dims ->
  match X i, T i with
  | Some x, Some t => (x <= t <= x + delta * IZR (box_size dims))%R
  | None, None => True
  | _, _ => False
  end.
Proof.
  intros Hd HX [S1 [S2 S3]] i Hi.
  assert (Hdec : forall i, {In i init} + {~ In i init}) by (intros; apply in_dec, Z.eq_dec).
  pose proof (exact_solution_delta X 1 ltac:(lra) HX) as [SX [_ NX]].
  destruct (T i) as [t|] eqn:Et.
  - destruct (exact_below_super T X HX S1 S3 i t Hi Et) as [x [Ex Hle]]. rewrite Ex. split; [exact Hle|].
    destruct (comparison dims src fr f Hp Hf Hdec delta X T Hd NX SX S2 i x Hi Ex) as [t' [Et' Hle2]].
    assert (t' = t) by congruence. subst. eapply Rle_trans; [exact Hle2|].
    pose proof (rank_le (Z.to_nat (box_size dims)) X i) as H. apply le_INR in H.
    rewrite (INR_IZR_INZ (Z.to_nat (box_size dims))), Z2Nat.id in H by lia. nra.
  - destruct (X i) as [x|] eqn:Ex; [|exact I].
    destruct (comparison dims src fr f Hp Hf Hdec delta X T Hd NX SX S2 i x Hi Ex) as [t' [Et' _]]. congruence.
Qed.

End Exact.

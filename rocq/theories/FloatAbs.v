(** FloatAbs.v - relaxation with rounding errors on abstract time maps: the
    a-priori bound on all times, the bound from below, and the bound from above
    at a fixed point. *)
From Coq Require Import Reals Lra Psatz Permutation.
From Flocq Require Import Core.
From Verif Require Import Base BaseFacts NumXR NumLaws Grid GridFacts Spec EikR Solution XGrid FMMAbs Relax Exact FloatOps FloatUpd.
Open Scope R_scope.

(** *** upwind sums under shifts and scalings *)
Lemma US_grow l x d f : 0 <= d -> 0 <= f -> (forall t, In t l -> Rmax (x - t) 0 <= f) ->
  upwind_sum l (x + d) <= upwind_sum l x + INR (length l) * (2 * d * f + d * d).
Proof.
  intros Hd Hf. induction l as [|t r IH]; intros H; [cbn; lra|].
  rewrite !US_cons. change (length (t :: r)) with (S (length r)). rewrite S_INR.
  specialize (IH ltac:(intros s Hs; apply H; right; exact Hs)). specialize (H t (or_introl eq_refl)).
  assert (Hm : 0 <= Rmax (x - t) 0) by apply Rmax_r.
  assert (Hs : Rmax (x + d - t) 0 <= Rmax (x - t) 0 + d).
  { unfold Rmax. destruct (Rle_dec (x + d - t) 0), (Rle_dec (x - t) 0); lra. }
  assert (Hs0 : 0 <= Rmax (x + d - t) 0) by apply Rmax_r.
  set (a := Rmax (x - t) 0) in *. set (b := Rmax (x + d - t) 0) in *. unfold Rsqr in *.
  assert (b * b <= (a + d) * (a + d)) by (apply Rmult_le_compat; lra). nra.
Qed.

Lemma US_each l x f t : 0 <= f -> upwind_sum l x <= f * f -> In t l -> Rmax (x - t) 0 <= f.
Proof.
  intros Hf H Hin. assert (Hs : Rsqr (Rmax (x - t) 0) <= upwind_sum l x).
  { clear H. induction l as [|s r IH]; [destruct Hin|]. rewrite US_cons. pose proof (US_nonneg r x). pose proof (Rle_0_sqr (Rmax (x - s) 0)).
    destruct Hin as [->|Hin]; [lra|]. specialize (IH Hin). lra. }
  assert (0 <= Rmax (x - t) 0) by apply Rmax_r. unfold Rsqr in Hs.
  destruct (Rle_dec (Rmax (x - t) 0) f) as [L|L]; [exact L|exfalso]. nra.
Qed.

Lemma US_ge1 l x t : In t l -> Rsqr (Rmax (x - t) 0) <= upwind_sum l x.
Proof.
  induction l as [|s r IH]; intros Hin; [destruct Hin|]. rewrite US_cons. pose proof (US_nonneg r x). pose proof (Rle_0_sqr (Rmax (x - s) 0)).
  destruct Hin as [->|Hin]; [lra|]. specialize (IH Hin). lra.
Qed.

Lemma US_shift l x d f n : 0 <= d -> 0 <= f -> INR (length l) <= n -> 1 <= n -> upwind_sum l x <= f * f ->
  upwind_sum l (x + d) <= (f + n * d) * (f + n * d).
Proof.
  intros Hd Hf Hl Hn H. pose proof (US_grow l x d f Hd Hf (fun t => US_each l x f t Hf H)) as G.
  assert (P1 : 0 <= 2 * d * f + d * d) by nra.
  assert (INR (length l) * (2 * d * f + d * d) <= n * (2 * d * f + d * d)) by (apply Rmult_le_compat_r; assumption).
  assert (n * (d * d) <= n * n * (d * d)) by (apply Rmult_le_compat_r; nra).
  nra.
Qed.

Lemma US_scale c l y : 0 < c -> upwind_sum (map (Rmult c) l) y = c * c * upwind_sum l (y / c).
Proof.
  intros Hc. induction l as [|t r IH]; [cbn; ring|]. cbn [map]. rewrite !US_cons, IH.
  assert (E : Rmax (y - c * t) 0 = c * Rmax (y / c - t) 0).
  { rewrite <- RmaxRmult by lra. rewrite Rmult_0_r. f_equal. field. lra. }
  rewrite E. unfold Rsqr. ring.
Qed.

Definition scale (c : R) (T : time_map) : time_map := fun i => option_map (Rmult c) (T i).

Lemma dmin_scale dims c T i d : 0 < c -> dmin dims (scale c T) i d = option_map (Rmult c) (dmin dims T i d).
Proof.
  intros Hc. unfold dmin. generalize (nbrs_in dims i d) as l. induction l as [|k l IH]; [reflexivity|].
  cbn [map fold_right]. rewrite IH. unfold scale. destruct (T k) as [a|], (fold_right omin None (map T l)) as [b|]; cbn; try reflexivity.
  f_equal. unfold Rmin. destruct (Rle_dec (c * a) (c * b)) as [L|L], (Rle_dec a b) as [L'|L']; auto; exfalso; nra.
Qed.

Lemma somes_scale c ms : somes (map (option_map (Rmult c)) ms) = map (Rmult c) (somes ms).
Proof. induction ms as [|[a|] r IH]; cbn; [reflexivity| |exact IH]. f_equal. exact IH. Qed.

Lemma US_dmins_scale dims c T i y : 0 < c ->
  upwind_sum (somes (dmins dims (scale c T) i)) y = c * c * upwind_sum (somes (dmins dims T i)) (y / c).
Proof.
  intros Hc. rewrite <- US_scale by exact Hc. f_equal. rewrite <- somes_scale. f_equal. unfold dmins. rewrite map_map.
  apply map_ext. intros d. apply dmin_scale, Hc.
Qed.

Lemma somes_length {A} (l : list (option A)) : (length (somes l) <= length l)%nat.
Proof. induction l as [|[a|] r IH]; [cbn; lia| |]; change (somes (?x :: r)) with (match x with Some y => [y] | None => [] end ++ somes r); cbn [app length]; lia. Qed.

Lemma dmins_length dims T i : INR (length (somes (dmins dims T i))) <= INR (length dims).
Proof.
  apply le_INR. eapply Nat.le_trans; [apply somes_length|]. unfold dmins. rewrite map_length, seq_length. lia.
Qed.

Lemma upw_length dims T i : INR (length (upw (T i) (dmins dims T i))) <= INR (length dims).
Proof.
  eapply Rle_trans; [|apply (dmins_length dims T i)]. apply le_INR. destruct (T i); cbn [upw]; [|lia].
  unfold below. generalize (somes (dmins dims T i)) as l. induction l as [|x l IH]; cbn; [lia|]. destruct (Rlt_dec x r); cbn; lia.
Qed.

Section FloatAbs.
Variables (dims : list Z) (init : list Z) (fr : Z -> Prop) (f : Z -> R).
Hypothesis Hp : proper dims.
Variables flo fhi : R.
Hypothesis Hflo : 0 < flo.
Hypothesis Hfr : forall i, fr i -> flo <= f i <= fhi.

Notation n := (INR (length dims)).
Notation M := Rmargin.
Definition NB : R := INR (Z.to_nat (box_size dims)).
(** no time ever exceeds this *)
Definition Bmax : R := 9 / 8 * fhi * NB.
Hypothesis Hsmall : 256 * (n * n * n * n) * (uu * ((Bmax + 3 * fhi) * (Bmax + 3 * fhi))) <= flo * flo.

Let Hf : forall i, fr i -> 0 < f i.
Proof. intros i Hi. specialize (Hfr i Hi). lra. Qed.

Lemma n_ge1 l : (l : list R) <> [] -> INR (length l) <= n -> 1 <= n.
Proof. intros H1 H2. destruct l; [contradiction|]. cbn [length] in H2. rewrite S_INR in H2. pose proof (pos_INR (length l)). lra. Qed.

Lemma small_f i B : fr i -> 0 <= B <= Bmax + 3 * fhi -> 256 * (n * n * n * n) * (uu * (B * B)) <= f i * f i.
Proof.
  intros Hi HB. specialize (Hfr i Hi). apply Rle_trans with (flo * flo); [|apply Rmult_le_compat; lra].
  eapply Rle_trans; [|exact Hsmall]. pose proof uu_pos. pose proof (pos_INR (length dims)) as N0.
  assert (0 <= n * n) by nra. assert (0 <= n * n * n * n) by (replace (n * n * n * n) with ((n * n) * (n * n)) by ring; nra).
  apply Rmult_le_compat_l; [lra|]. apply Rmult_le_compat_l; [lra|]. apply Rmult_le_compat; lra.
Qed.

(** the times of a run *)
Record FSup (T : time_map) : Prop := {
  fs_src : forall i, In i init -> T i = Some 0;
  fs_rng : forall i t, T i = Some t -> (0 <= i < box_size dims)%Z;
  fs_reached : forall i t, T i = Some t -> ~ In i init ->
     0 < t /\ fr i /\ exists k s, adjacent dims i k /\ T k = Some s /\ s < t;
  fs_rank : forall i t, T i = Some t -> t <= 9 / 8 * fhi * INR (rank (Z.to_nat (box_size dims)) T i)
}.

Lemma fs_nonneg T i t : FSup T -> T i = Some t -> 0 <= t.
Proof.
  intros S H. destruct (in_dec Z.eq_dec i init) as [Hi|Hi].
  - rewrite (fs_src _ S i Hi) in H. injection H as <-. lra.
  - destruct (fs_reached _ S i t H Hi) as [A _]. lra.
Qed.

Lemma fs_bound T i t : FSup T -> 0 <= fhi -> T i = Some t -> 0 <= t <= Bmax.
Proof.
  intros S Hh H. split; [eapply fs_nonneg; eauto|]. eapply Rle_trans; [apply (fs_rank _ S i t H)|].
  unfold Bmax, NB. apply Rmult_le_compat_l; [lra|]. apply le_INR, rank_le.
Qed.


(** strictly better, as isTimeBetterThan decides on doubles *)
Definition fbetter (u : R) (o : option R) : Prop := match o with None => True | Some t => rnd (u + M) < t end.

(** [u] is what solveEikonal returns for cell [i] *)
Record solves (T : time_map) (i : Z) (u : R) : Prop := {
  sv_ne : upw (T i) (dmins dims T i) <> [];
  sv_rnd : rnd u = u;
  sv_rng : 0 < u <= Bmax + 2 * f i;
  sv_au : almost_update (f i) n (upw (T i) (dmins dims T i)) u
}.

Lemma margin_ge u : rnd u = u -> u <= rnd (u + M).
Proof. intros E. rewrite <- E at 1. apply rnd_le. pose proof Rmargin_pos. lra. Qed.

Lemma fbetter_lt u t : rnd u = u -> fbetter u (Some t) -> u < t.
Proof. intros E H. cbn in H. pose proof (margin_ge u E). lra. Qed.

Lemma tick T i a : In a (upw (T i) (dmins dims T i)) -> (0 <= i < box_size dims)%Z ->
  (exists k, adjacent dims i k /\ T k = Some a) /\ (forall o, T i = Some o -> a < o).
Proof.
  intros Ha Hi. split.
  - apply (in_somes_dmins dims Hp T i a Hi). eapply upw_incl; eauto.
  - intros o Ho. rewrite Ho in Ha. apply in_below in Ha. tauto.
Qed.

Lemma src_no_solve T i : FSup T -> In i init -> (0 <= i < box_size dims)%Z -> upw (T i) (dmins dims T i) = [].
Proof.
  intros S Hi Hr. destruct (upw (T i) (dmins dims T i)) as [|x r] eqn:E; [reflexivity|exfalso].
  destruct (tick T i x ltac:(rewrite E; left; reflexivity) Hr) as [[k [_ Hk]] Hlt].
  specialize (Hlt 0 (fs_src _ S i Hi)). pose proof (fs_nonneg T k x S Hk). lra.
Qed.

Lemma fs_lower T j u : FSup T -> fr j -> (0 <= j < box_size dims)%Z -> solves T j u -> (forall o, T j = Some o -> u < o) ->
  FSup (upd T j u) /\ ~ In j init.
Proof.
  intros S Hfj Hj [Hne Er [Hu0 _] [_ _ [a [Ha Hau]] Hle]] Hlow.
  assert (Hni : ~ In j init) by (intros Hi; apply Hne, src_no_solve; auto).
  split; [|exact Hni].
  destruct (tick T j a Ha Hj) as [[k [Hk HTk]] Hown].
  assert (Hkj : k <> j) by (intros ->; exact (adjacent_irrefl _ _ Hk)).
  pose proof (Hfr j Hfj) as Hfjr.
  pose proof (n_ge1 _ Hne (upw_length dims T j)) as Hn.
  assert (Hau' : a < u).
  { assert (0 < f j / (2 * n)) by (apply Rdiv_lt_0_compat; lra). lra. }
  constructor.
  - intros i Hi. rewrite upd_other by (intros ->; contradiction). apply (fs_src _ S i Hi).
  - intros i t H. destruct (Z.eq_dec i j) as [->|Hij]; [exact Hj|].
    rewrite upd_other in H by exact Hij. apply (fs_rng _ S i t H).
  - intros i t H Hi. destruct (Z.eq_dec i j) as [->|Hij].
    + rewrite upd_same in H. injection H as <-. split; [exact Hu0|]. split; [exact Hfj|].
      exists k, a. rewrite upd_other by exact Hkj. auto.
    + rewrite upd_other in H by exact Hij. destruct (fs_reached _ S i t H Hi) as [A [B [k' [s [K1 [K2 K3]]]]]].
      split; [exact A|]. split; [exact B|]. destruct (Z.eq_dec k' j) as [->|Hkj'].
      * exists j, u. rewrite upd_same. split; [exact K1|]. split; [reflexivity|]. specialize (Hlow s K2). lra.
      * exists k', s. rewrite upd_other by exact Hkj'. auto.
  - intros i t H. set (nn := Z.to_nat (box_size dims)). destruct (Z.eq_dec i j) as [->|Hij].
    + rewrite upd_same in H. injection H as <-.
      assert (Hrk : (rank nn T k < rank nn (upd T j u) j)%nat).
      { unfold rank. apply (filter_lt _ _ _ k).
        - intros x Hx. unfold tlt in *. rewrite upd_same. rewrite HTk in Hx. destruct (T x) as [b|] eqn:Ex; [|discriminate].
          destruct (Rlt_dec b a) as [L|L]; [|discriminate].
          rewrite upd_other; [rewrite Ex; destruct (Rlt_dec b u); [reflexivity|lra]|].
          intros ->. specialize (Hown b Ex). lra.
        - apply in_zseq. pose proof (fs_rng _ S k a HTk). unfold nn. lia.
        - apply tlt_irrefl.
        - unfold tlt. rewrite upd_same, upd_other, HTk by exact Hkj. destruct (Rlt_dec a u); [reflexivity|lra]. }
      pose proof (fs_rank _ S k a HTk) as Hk'. fold nn in Hk'.
      apply lt_INR in Hrk. assert (Hr1 : INR (rank nn T k) + 1 <= INR (rank nn (upd T j u) j)).
      { rewrite <- S_INR. apply le_INR. apply INR_lt in Hrk. lia. }
      specialize (Hle a Ha). assert (9 / 8 * fhi * (INR (rank nn T k) + 1) <= 9 / 8 * fhi * INR (rank nn (upd T j u) j)) by (apply Rmult_le_compat_l; lra).
      lra.
    + rewrite upd_other in H by exact Hij. eapply Rle_trans; [apply (fs_rank _ S i t H)|]. fold nn.
      apply Rmult_le_compat_l; [lra|]. apply le_INR. unfold rank. apply filter_le. intros x Hx. unfold tlt in *.
      rewrite (upd_other T j u i Hij). rewrite H in *. destruct (Z.eq_dec x j) as [->|Hxj].
      * rewrite upd_same. destruct (T j) as [b|] eqn:Ej; [|discriminate]. specialize (Hlow b eq_refl).
        destruct (Rlt_dec b t); [|discriminate]. destruct (Rlt_dec u t); [reflexivity|lra].
      * rewrite upd_other by exact Hxj. exact Hx.
Qed.

Lemma fs_update T j u : FSup T -> fr j -> (0 <= j < box_size dims)%Z -> solves T j u -> fbetter u (T j) ->
  FSup (upd T j u) /\ ~ In j init.
Proof.
  intros S Hfj Hj Sv Hb. apply fs_lower; auto. intros o Ho. rewrite Ho in Hb. apply fbetter_lt; [apply (sv_rnd _ _ _ Sv)|exact Hb].
Qed.

(** before the first update *)
Lemma fs_start T : (forall i, In i init -> (0 <= i < box_size dims)%Z) -> 0 <= fhi ->
  (forall i, T i = if in_dec Z.eq_dec i init then Some 0 else None) -> FSup T.
Proof.
  intros Hr Hh HT. constructor.
  - intros i Hi. rewrite HT. destruct (in_dec Z.eq_dec i init); [reflexivity|contradiction].
  - intros i t H. rewrite HT in H. destruct (in_dec Z.eq_dec i init); [auto|discriminate].
  - intros i t H Hi. rewrite HT in H. destruct (in_dec Z.eq_dec i init); [contradiction|discriminate].
  - intros i t H. rewrite HT in H. destruct (in_dec Z.eq_dec i init); [|discriminate]. injection H as <-.
    apply Rmult_le_pos; [lra|apply pos_INR].
Qed.

(** *** settled cells *)
(** the slack of a cell with time [t] *)
Definition sl (i : Z) (t : R) : R := 3 * M + 2 * dlt n (f i) (t + 2 * f i).

(** cell [i] is not later than the neighbours [A] force it to be *)
Definition settled_by (A T : time_map) (i : Z) : Prop :=
  match T i with
  | None => forall j, adjacent dims i j -> A j = None
  | Some t => upwind_sum (somes (dmins dims A i)) (t - sl i t) < f i * f i
  end.
Notation fsettled T i := (settled_by T T i).

Lemma dlt_pos i B : fr i -> 0 <= dlt n (f i) B.
Proof. intros Hi. apply dlt_nonneg, Hf, Hi. Qed.

Lemma sl_pos i t : fr i -> 3 * M <= sl i t.
Proof. intros Hi. unfold sl. pose proof (dlt_pos i (t + 2 * f i) Hi). lra. Qed.

(** values at or above the own time do not count *)
Lemma US_upw T i x : (forall o, T i = Some o -> x <= o) ->
  upwind_sum (somes (dmins dims T i)) x = upwind_sum (upw (T i) (dmins dims T i)) x.
Proof. intros H. destruct (T i) as [o|]; cbn [upw]; [|reflexivity]. apply US_below_eq. apply H. reflexivity. Qed.

Lemma fsettled_updated T j u : fr j -> (0 <= j < box_size dims)%Z -> solves T j u -> fbetter u (T j) ->
  fsettled (upd T j u) j.
Proof.
  intros Hfj Hj [Hne Er [Hu0 _] [_ Hlate _ _]] Hb. unfold settled_by. rewrite upd_same, dmins_upd_self by assumption.
  pose proof Rmargin_pos as HM. pose proof (Hf j Hfj) as Hf0.
  rewrite US_upw.
  2: { intros o Ho. rewrite Ho in Hb. pose proof (fbetter_lt u o Er Hb). pose proof (sl_pos j u Hfj). lra. }
  eapply Rle_lt_trans; [|exact Hlate]. apply US_mono. unfold sl.
  pose proof (dlt_mono n (f j) (u + f j) (u + 2 * f j) Hf0 ltac:(lra)).
  pose proof (dlt_pos j (u + 2 * f j) Hfj). lra.
Qed.

(** isTimeBetterThan failed *)
Lemma not_better u t i : fr i -> 1 <= n -> 0 <= u -> ~ fbetter u (Some t) -> t - sl i t <= u.
Proof.
  intros Hi Hn Hu H. cbn in H. apply Rnot_lt_le in H. pose proof Rmargin_pos as HM. pose proof (Hf i Hi) as Hf0.
  pose proof (sl_pos i t Hi) as Hs.
  destruct (Rle_dec t u) as [L|L]; [lra|].
  pose proof (rnd_err (u + M)) as E. rewrite (Rabs_pos_eq (u + M)) in E by lra. apply Rabs_le_inv in E.
  pose proof uu_pos as U0. assert (U1 : uu <= 1 / 1000) by (rewrite uu_val; lra).
  assert (Hd : uu * u <= dlt n (f i) (t + 2 * f i)).
  { unfold dlt. apply Rmult_le_reg_r with (f i); [exact Hf0|].
    replace (32 * (n * n) * (uu * ((t + 2 * f i) * (t + 2 * f i))) / f i * f i) with (32 * (n * n) * (uu * ((t + 2 * f i) * (t + 2 * f i)))) by (field; lra).
    assert (u * f i <= (t + 2 * f i) * (t + 2 * f i)) by (apply Rmult_le_compat; lra).
    assert (A : uu * (u * f i) <= uu * ((t + 2 * f i) * (t + 2 * f i))) by (apply Rmult_le_compat_l; lra).
    assert (0 <= uu * ((t + 2 * f i) * (t + 2 * f i))) by (apply Rmult_le_pos; nra).
    assert (1 <= n * n) by nra.
    assert (1 * (uu * ((t + 2 * f i) * (t + 2 * f i))) <= 32 * (n * n) * (uu * ((t + 2 * f i) * (t + 2 * f i)))) by (apply Rmult_le_compat_r; lra).
    lra. }
  assert (He : eta <= M).
  { unfold eta, Rmargin. assert (bpow radix2 (-1074) <= bpow radix2 (-52)) by (apply bpow_le; lia).
    change (bpow radix2 (-52)) with (/ IZR (Zpower_pos 2 52)) in *. change (Zpower_pos 2 52) with 4503599627370496%Z in *. lra. }
  assert (uu * M <= M) by nra.
  unfold sl in *. lra.
Qed.

Lemma fsettled_keep A T j u i : fr i -> 1 <= n -> (0 <= i < box_size dims)%Z -> i <> j -> 0 <= u ->
  (adjacent dims i j -> ~ fbetter u (T i)) -> settled_by A T i -> settled_by (upd A j u) (upd T j u) i.
Proof.
  intros Hfi Hn Hi Hij Hu Hnb Hs. unfold settled_by in *. rewrite upd_other by exact Hij.
  destruct (T i) as [t|] eqn:Et.
  - eapply Rle_lt_trans; [|exact Hs]. apply US_le; auto. intros k s Hk Hks Hlt.
    destruct (Z.eq_dec k j) as [->|Hkj].
    + rewrite upd_same in Hks. injection Hks as <-. exfalso. pose proof (not_better u t i Hfi Hn Hu (Hnb Hk)). lra.
    + rewrite upd_other in Hks by exact Hkj. exists s. split; [exact Hks|lra].
  - intros k Hk. destruct (Z.eq_dec k j) as [->|Hkj]; [exfalso; apply (Hnb Hk); exact I|].
    rewrite upd_other by exact Hkj. apply Hs, Hk.
Qed.

Lemma dlt_quarter i B : fr i -> 1 <= n -> 0 <= B <= Bmax + 3 * fhi -> dlt n (f i) B <= f i / 8.
Proof.
  intros Hi Hn HB. pose proof (dlt_small n (f i) B (Hf i Hi) (small_f i B Hi HB)) as H.
  pose proof (dlt_pos i B Hi). assert (8 * 1 * dlt n (f i) B <= 8 * (n * n) * dlt n (f i) B) by (apply Rmult_le_compat_r; nra). lra.
Qed.

Lemma fsettled_not_better T i : FSup T -> fr i -> (0 <= i < box_size dims)%Z -> ~ In i init ->
  (upw (T i) (dmins dims T i) = [] \/ exists u, solves T i u /\ ~ fbetter u (T i)) -> fsettled T i.
Proof.
  intros S Hfi Hi Hni H. unfold settled_by. pose proof Rmargin_pos as HM. pose proof (Hfr i Hfi) as Hfir.
  destruct (T i) as [t|] eqn:Et.
  - rewrite <- Et in H. destruct H as [H|[u [[Hne Er Hu [_ Hlate _ _]] Hb]]].
    + exfalso. destruct (fs_reached _ S i t Et Hni) as [_ [_ [k [s [K1 [K2 K3]]]]]].
      destruct (adjacent_adjacent_in _ _ _ K1) as [d [Hd Hk]].
      pose proof (dmin_spec dims T i d Hp Hi Hd) as Hm. destruct (dmin dims T i d) as [r|] eqn:E; [|rewrite (Hm k Hk) in K2; discriminate].
      destruct Hm as [_ Hm]. specialize (Hm k s Hk K2).
      assert (Hin : In r (upw (T i) (dmins dims T i))); [|rewrite H in Hin; destruct Hin].
      rewrite Et. apply in_below. split; [|lra]. apply in_somes, in_dmins. eauto.
    + rewrite Et in Hb. pose proof (n_ge1 _ Hne (upw_length dims T i)) as Hn.
      rewrite US_upw by (intros o Ho; assert (o = t) by congruence; subst o; pose proof (sl_pos i t Hfi); lra).
      eapply Rle_lt_trans; [|exact Hlate]. apply US_mono.
      pose proof (dlt_pos i (t + 2 * f i) Hfi) as D0. pose proof (fs_nonneg T i t S Et) as Ht0.
      destruct (Rle_dec u (t + f i)) as [L|L].
      * pose proof (dlt_mono n (f i) (u + f i) (t + 2 * f i) ltac:(lra) ltac:(lra)).
        cbn in Hb. apply Rnot_lt_le in Hb.
        pose proof (rnd_err (u + M)) as E. rewrite (Rabs_pos_eq (u + M)) in E by lra. apply Rabs_le_inv in E.
        pose proof uu_pos as U0. assert (U1 : uu <= 1 / 1000) by (rewrite uu_val; lra).
        assert (Hd : uu * u <= dlt n (f i) (t + 2 * f i)).
        { unfold dlt. apply Rmult_le_reg_r with (f i); [lra|].
          replace (32 * (n * n) * (uu * ((t + 2 * f i) * (t + 2 * f i))) / f i * f i) with (32 * (n * n) * (uu * ((t + 2 * f i) * (t + 2 * f i)))) by (field; lra).
          assert (u * f i <= (t + 2 * f i) * (t + 2 * f i)) by (apply Rmult_le_compat; lra).
          assert (A : uu * (u * f i) <= uu * ((t + 2 * f i) * (t + 2 * f i))) by (apply Rmult_le_compat_l; lra).
          assert (0 <= uu * ((t + 2 * f i) * (t + 2 * f i))) by (apply Rmult_le_pos; nra).
          assert (1 <= n * n) by nra.
          assert (1 * (uu * ((t + 2 * f i) * (t + 2 * f i))) <= 32 * (n * n) * (uu * ((t + 2 * f i) * (t + 2 * f i)))) by (apply Rmult_le_compat_r; lra).
          lra. }
        assert (He : eta <= M / 2).
        { unfold eta, Rmargin. assert (bpow radix2 (-1074) <= bpow radix2 (-52)) by (apply bpow_le; lia).
          change (bpow radix2 (-52)) with (/ IZR (Zpower_pos 2 52)) in *. change (Zpower_pos 2 52) with 4503599627370496%Z in *. lra. }
        assert (uu * M <= M / 2) by nra.
        unfold sl in *. lra.
      * pose proof (dlt_quarter i (u + f i) Hfi Hn ltac:(lra)). unfold sl. lra.
  - rewrite <- Et in H. destruct H as [H|[u [_ Hb]]]; [|rewrite Et in Hb; exfalso; apply Hb; exact I].
    rewrite Et in H. cbn [upw] in H. intros j Hj. eapply (somes_dmins_empty dims Hp); eauto.
Qed.

(** ** against the exact solution *)
Section Exact.
Variable X : time_map.
Hypothesis HX : exact_solution dims (fun i => In i init) fr f X.
Variable Xm : R.
Hypothesis HXm : forall i x, X i = Some x -> x <= Xm.

(** relative error from below *)
Definition kappa_lo : R := 3 * (n * n) * dlt n flo (Xm + fhi) / flo.

Lemma dlt_flo i B B' : fr i -> 0 <= B <= B' -> dlt n (f i) B <= dlt n flo B'.
Proof.
  intros Hi HB. pose proof (Hfr i Hi). pose proof uu_pos. eapply Rle_trans; [apply (dlt_mono n (f i) B B'); [lra|exact HB]|].
  unfold dlt, Rdiv. apply Rmult_le_compat_l.
  - apply Rmult_le_pos; [|apply Rmult_le_pos; nra]. pose proof (pos_INR (length dims)). nra.
  - apply Rinv_le_contravar; lra.
Qed.

Definition not_early (T : time_map) : Prop :=
  forall i t, T i = Some t -> exists x, X i = Some x /\ (1 - kappa_lo) * x <= t.

Lemma exact_ms i x : X i = Some x -> ~ In i init ->
  (0 <= i < box_size dims)%Z /\ fr i /\ upwind_sum (somes (dmins dims X i)) x = f i * f i.
Proof.
  intros Hx Hs. pose proof (ex_range _ _ _ _ _ HX i x Hx) as Hi.
  destruct (ex_eq _ _ _ _ _ HX i x _ Hx Hs (dmins_spec dims X i Hp Hi)) as [A B]. auto.
Qed.

Lemma not_early_update T j u : FSup T -> not_early T -> fr j -> (0 <= j < box_size dims)%Z -> ~ In j init -> solves T j u ->
  exists x, X j = Some x /\ (1 - kappa_lo) * x <= u.
Proof.
  intros S NE Hfj Hj Hni [Hne Er [Hu0 _] [Hearly _ [a [Ha _]] _]].
  destruct (tick T j a Ha Hj) as [[k [Hk HTk]] _].
  destruct (X j) as [x|] eqn:Ex.
  2: { exfalso. destruct (NE k a HTk) as [y [Ey _]]. pose proof (ex_inf _ _ _ _ _ HX j k Hj Hfj Hni Ex Hk). congruence. }
  exists x. split; [reflexivity|].
  pose proof (ex_nonneg _ _ _ _ _ HX j x Ex) as Hx0. pose proof (HXm j x Ex) as HxM.
  pose proof (Hfr j Hfj) as Hfjr. pose proof (n_ge1 _ Hne (upw_length dims T j)) as Hn.
  destruct (Rle_dec 1 kappa_lo) as [Hk1|Hk1]; [nra|].
  destruct (Rle_dec ((1 - kappa_lo) * x) u) as [L|L]; [exact L|exfalso]. apply Rnot_le_lt in L. apply Rnot_le_lt in Hk1.
  set (c := 1 - kappa_lo) in *.
  pose proof (dlt_nonneg n flo (Xm + fhi) Hflo) as D0.
  assert (Hk0 : 0 <= kappa_lo).
  { unfold kappa_lo, Rdiv. apply Rmult_le_pos; [apply Rmult_le_pos; nra|apply Rlt_le, Rinv_0_lt_compat, Hflo]. }
  assert (Hc : 0 < c <= 1) by (unfold c; lra).
  assert (Hux : u < x) by (assert (c * x <= 1 * x) by (apply Rmult_le_compat_r; lra); lra).
  set (e := 3 * n * dlt n flo (Xm + fhi)).
  assert (He0 : 0 <= e) by (unfold e; apply Rmult_le_pos; lra).
  assert (He : 3 * n * dlt n (f j) (u + f j) <= e).
  { unfold e. apply Rmult_le_compat_l; [lra|]. apply dlt_flo; [exact Hfj|lra]. }
  assert (Hke : n * e = kappa_lo * flo) by (unfold e, kappa_lo; field; lra).
  (* compare with the scaled exact solution *)
  destruct (exact_ms j x Ex Hni) as [_ [_ Heq]].
  assert (A1 : f j * f j <= upwind_sum (somes (dmins dims T j)) (u + e)).
  { eapply Rle_trans; [exact Hearly|]. eapply Rle_trans; [apply US_upw_le|]. apply US_mono. lra. }
  assert (A2 : upwind_sum (somes (dmins dims T j)) (u + e) <= upwind_sum (somes (dmins dims (scale c X) j)) (u + e)).
  { apply US_le; auto. intros k' s _ Hs _. destruct (NE k' s Hs) as [y [Ey Hy]]. exists (c * y). unfold scale. rewrite Ey. split; [reflexivity|exact Hy]. }
  rewrite US_dmins_scale in A2 by lra.
  assert (Hlt : (u + e) / c < x + e / c).
  { apply Rmult_lt_reg_r with c; [lra|]. replace ((u + e) / c * c) with (u + e) by (field; lra).
    replace ((x + e / c) * c) with (c * x + e) by (field; lra). lra. }
  assert (Hec : 0 <= e / c) by (apply Rmult_le_pos; [lra|apply Rlt_le, Rinv_0_lt_compat; lra]).
  pose proof (US_shift (somes (dmins dims X j)) x (e / c) (f j) n Hec ltac:(lra) (dmins_length dims X j) Hn ltac:(lra)) as A3.
  assert (A4 : upwind_sum (somes (dmins dims X j)) ((u + e) / c) < upwind_sum (somes (dmins dims X j)) (x + e / c)).
  { apply US_strict; [exact Hlt|]. eapply Rlt_le_trans; [|apply (US_mono _ x); lra]. rewrite Heq. nra. }
  assert (A5 : c * c * ((f j + n * (e / c)) * (f j + n * (e / c))) <= f j * f j).
  { replace (c * c * ((f j + n * (e / c)) * (f j + n * (e / c)))) with ((c * f j + n * e) * (c * f j + n * e)) by (field; lra).
    assert (c * f j + n * e <= f j).
    { rewrite Hke. unfold c. assert (kappa_lo * flo <= kappa_lo * f j) by (apply Rmult_le_compat_l; lra). lra. }
    assert (0 <= c * f j + n * e) by (assert (0 <= c * f j) by nra; assert (0 <= n * e) by (apply Rmult_le_pos; lra); lra).
    apply Rmult_le_compat; lra. }
  assert (c * c * upwind_sum (somes (dmins dims X j)) ((u + e) / c) < c * c * ((f j + n * (e / c)) * (f j + n * (e / c)))).
  { apply Rmult_lt_compat_l; [nra|]. lra. }
  lra.
Qed.

Lemma not_early_upd T j u : FSup T -> not_early T -> fr j -> (0 <= j < box_size dims)%Z -> ~ In j init -> solves T j u ->
  not_early (upd T j u).
Proof.
  intros S NE Hfj Hj Hni Hs i t Ht. destruct (Z.eq_dec i j) as [->|Hij].
  - rewrite upd_same in Ht. injection Ht as <-. eapply not_early_update; eauto.
  - rewrite upd_other in Ht by exact Hij. eauto.
Qed.

Lemma not_early_start T : (forall i, T i = if in_dec Z.eq_dec i init then Some 0 else None) -> not_early T.
Proof.
  intros HT i t Ht. rewrite HT in Ht. destruct (in_dec Z.eq_dec i init) as [Hi|]; [|discriminate]. injection Ht as <-.
  exists 0. split; [apply (ex_src _ _ _ _ _ HX i Hi)|lra].
Qed.

(** relative error from above *)
Definition slack_hi : R := 3 * M + 2 * dlt n flo (2 * Xm + 5 * fhi).
Definition kappa_hi : R := n * slack_hi / flo.
Hypothesis Hk1 : kappa_hi <= 1.

(** neighbours [A] within the bound, cell [i] settled by them *)
Lemma settled_not_late A T i x t : fr i -> ~ In i init -> X i = Some x -> 1 <= n ->
  (forall k y, adjacent dims i k -> X k = Some y -> y < x -> exists s, A k = Some s /\ s <= (1 + kappa_hi) * y) ->
  T i = Some t -> 0 <= t <= Bmax -> settled_by A T i -> t <= (1 + kappa_hi) * x.
Proof.
  intros Hfi Hni Ex Hn HA Ht Htb Hs. destruct (Rle_dec t ((1 + kappa_hi) * x)) as [L|L]; [exact L|exfalso]. apply Rnot_le_lt in L.
  unfold settled_by in Hs. rewrite Ht in Hs. destruct (exact_ms i x Ex Hni) as [Hi [_ Heq]].
  pose proof (Hfr i Hfi) as Hfir. pose proof Rmargin_pos as HM.
  pose proof (ex_nonneg _ _ _ _ _ HX i x Ex) as Hx0. pose proof (HXm i x Ex) as HxM.
  pose proof (dlt_nonneg n flo (2 * Xm + 5 * fhi) Hflo) as D0.
  assert (Hs0 : 0 < slack_hi) by (unfold slack_hi; lra).
  assert (Hk0 : 0 <= kappa_hi).
  { unfold kappa_hi, Rdiv. apply Rmult_le_pos; [apply Rmult_le_pos; lra|apply Rlt_le, Rinv_0_lt_compat, Hflo]. }
  assert (Hks : n * slack_hi = kappa_hi * flo) by (unfold kappa_hi; field; lra).
  set (c := 1 + kappa_hi) in *. assert (Hc : 1 <= c <= 2) by (unfold c; lra).
  (* a neighbour the exact time comes from *)
  destruct (US_pos_has dims Hp X i x Hi ltac:(rewrite Heq; nra)) as [k [y [Hk [Hy Hyx]]]].
  destruct (HA k y Hk Hy Hyx) as [s [Hs1 Hs2]].
  assert (Hcy : c * y <= c * x) by (apply Rmult_le_compat_l; lra).
  (* t is not much larger than c x *)
  assert (Hslt : sl i t <= 3 * M + f i / 4 + 0).
  { unfold sl. pose proof (dlt_quarter i (t + 2 * f i) Hfi Hn ltac:(lra)). lra. }
  assert (H3M : 3 * M <= flo).
  { assert (slack_hi <= n * slack_hi) by nra. assert (kappa_hi * flo <= 1 * flo) by (apply Rmult_le_compat_r; lra).
    unfold slack_hi in *. lra. }
  assert (Htl : t - sl i t < c * x + f i).
  { destruct (Rlt_dec (t - sl i t) (c * x + f i)) as [L'|L']; [exact L'|exfalso]. apply Rnot_lt_le in L'.
    assert (f i * f i <= upwind_sum (somes (dmins dims A i)) (t - sl i t)); [|lra].
    destruct (adjacent_adjacent_in _ _ _ Hk) as [d [Hd Hkd]].
    pose proof (dmin_spec dims A i d Hp Hi Hd) as Hm. destruct (dmin dims A i d) as [r|] eqn:E; [|rewrite (Hm k Hkd) in Hs1; discriminate].
    destruct Hm as [_ Hm]. specialize (Hm k s Hkd Hs1).
    assert (Hin : In r (somes (dmins dims A i))) by (apply in_somes, in_dmins; eauto).
    pose proof (US_ge1 (somes (dmins dims A i)) (t - sl i t) r Hin) as Hg. eapply Rle_trans; [|exact Hg].
    rewrite Rmax_left by lra. unfold Rsqr. apply Rmult_le_compat; lra. }
  assert (Htx : t <= 2 * x + 3 * f i).
  { assert (c * x <= 2 * x) by (apply Rmult_le_compat_r; lra). lra. }
  assert (Hsl : sl i t <= slack_hi).
  { unfold sl, slack_hi. pose proof (dlt_flo i (t + 2 * f i) (2 * Xm + 5 * fhi) Hfi ltac:(lra)). lra. }
  (* compare with the scaled exact solution *)
  set (y0 := c * x - slack_hi).
  assert (A1 : upwind_sum (somes (dmins dims (scale c X) i)) y0 <= upwind_sum (somes (dmins dims A i)) (t - sl i t)).
  { eapply Rle_trans; [apply (US_le dims _ A i y0 Hp Hi)|apply US_mono; unfold y0; lra].
    intros k' s' Hk' Hs' Hlt. unfold scale in Hs'. destruct (X k') as [y'|] eqn:Ek'; [|discriminate]. injection Hs' as <-.
    destruct (HA k' y' Hk' Ek') as [s'' [S1 S2]]; [|exists s''; auto].
    apply Rmult_lt_reg_l with c; [lra|]. unfold y0 in Hlt. lra. }
  rewrite US_dmins_scale in A1 by lra.
  set (d := slack_hi / c). assert (Hd0 : 0 <= d) by (apply Rmult_le_pos; [lra|apply Rlt_le, Rinv_0_lt_compat; lra]).
  assert (Hy0 : y0 / c = x - d) by (unfold y0, d; field; lra). rewrite Hy0 in A1.
  set (q := upwind_sum (somes (dmins dims X i)) (x - d)) in *.
  assert (Hq0 : 0 <= q) by apply US_nonneg.
  pose proof (US_shift (somes (dmins dims X i)) (x - d) d (sqrt q) n Hd0 (sqrt_pos q) (dmins_length dims X i) Hn
    ltac:(rewrite sqrt_sqrt by exact Hq0; unfold q; lra)) as A2.
  replace (x - d + d) with x in A2 by ring. rewrite Heq in A2. pose proof (sqrt_pos q) as Hr0.
  assert (Hnd : 0 <= n * d) by (apply Rmult_le_pos; lra).
  assert (A3 : f i <= sqrt q + n * d).
  { destruct (Rle_dec (f i) (sqrt q + n * d)) as [L'|L']; [exact L'|exfalso]. nra. }
  assert (A4 : c * (n * d) = kappa_hi * flo) by (rewrite <- Hks; unfold d; field; lra).
  assert (A5 : f i <= c * sqrt q).
  { assert (c * f i <= c * (sqrt q + n * d)) by (apply Rmult_le_compat_l; lra).
    assert (kappa_hi * flo <= kappa_hi * f i) by (apply Rmult_le_compat_l; lra). unfold c in *. lra. }
  assert (f i * f i <= (c * sqrt q) * (c * sqrt q)) by (apply Rmult_le_compat; lra).
  replace ((c * sqrt q) * (c * sqrt q)) with (c * c * (sqrt q * sqrt q)) in * by ring. rewrite sqrt_sqrt in * by exact Hq0. lra.
Qed.

(** at a fixed point *)
Theorem fixpoint_not_late T : FSup T -> 0 <= fhi ->
  (forall i, (0 <= i < box_size dims)%Z -> fr i -> ~ In i init -> fsettled T i) ->
  forall i x, X i = Some x -> exists t, T i = Some t /\ t <= (1 + kappa_hi) * x.
Proof.
  intros S Hh Hset. set (nn := Z.to_nat (box_size dims)).
  assert (Hall : forall r i x, (rank nn X i <= r)%nat -> X i = Some x -> exists t, T i = Some t /\ t <= (1 + kappa_hi) * x).
  { induction r as [|r IH]; intros i x Hr Ex.
    all: destruct (in_dec Z.eq_dec i init) as [Hi|Hi];
      [exists 0; rewrite (ex_src _ _ _ _ _ HX i Hi) in Ex; injection Ex as <-; split; [apply (fs_src _ S i Hi)|lra]|].
    all: destruct (exact_ms i x Ex Hi) as [Hir [Hfi Heq]]; pose proof (Hfr i Hfi) as Hfir;
      destruct (US_pos_has dims Hp X i x Hir ltac:(rewrite Heq; nra)) as [k [y [Hk [Hy Hyx]]]].
    - exfalso. pose proof (rank_lt nn X k i) as Hrk. specialize (Hrk ltac:(pose proof (ex_range _ _ _ _ _ HX k y Hy); unfold nn; lia)).
      unfold tlt in Hrk. rewrite Hy, Ex in Hrk. destruct (Rlt_dec y x); [|lra]. specialize (Hrk eq_refl). lia.
    - assert (HA : forall k y, adjacent dims i k -> X k = Some y -> y < x -> exists s, T k = Some s /\ s <= (1 + kappa_hi) * y).
      { intros k' y' Hk' Hy' Hlt. apply (IH k' y'); [|exact Hy']. pose proof (rank_lt nn X k' i) as Hrk.
        specialize (Hrk ltac:(pose proof (ex_range _ _ _ _ _ HX k' y' Hy'); unfold nn; lia)).
        unfold tlt in Hrk. rewrite Hy', Ex in Hrk. destruct (Rlt_dec y' x); [|lra]. specialize (Hrk eq_refl). lia. }
      specialize (Hset i Hir Hfi Hi).
      assert (Hn : 1 <= n).
      { apply (n_ge1 (somes (dmins dims X i))); [|apply dmins_length]. intros E. rewrite E in Heq. cbn in Heq. nra. }
      destruct (T i) as [t|] eqn:Et.
      + exists t. split; [reflexivity|]. eapply settled_not_late; eauto. eapply fs_bound; eauto.
      + exfalso. unfold settled_by in Hset. rewrite Et in Hset. destruct (HA k y Hk Hy Hyx) as [s [Hs _]]. rewrite (Hset k Hk) in Hs. discriminate. }
  intros i x. apply (Hall (rank nn X i)). lia.
Qed.
End Exact.
End FloatAbs.

(** Level.v - termination of asynchronous relaxation in exact arithmetic.

    The local update is strictly causal with a uniform gap: every value it uses is below the
    result by at least [gam].  Hence times below [k * gam] determine which times below
    [(k+1) * gam] an update can produce, and the vector "number of cells whose time is wrong at
    level k" decreases lexicographically with every change of a low time. *)
From Coq Require Import Reals Lra Permutation Sorted.
From Verif Require Import Base BaseFacts Num NumXR NumLaws Grid GridFacts Spec Solution EikR XGrid FMMAbs Relax.
Open Scope Z_scope.

Section Gap.
Local Open Scope R_scope.
Variables (f m gam : R).
Hypothesis Hf : 0 < f.
Hypothesis Hm : 0 < m.
Hypothesis Hg0 : 0 < gam.
Hypothesis Hgf : gam <= f.
Hypothesis Hgm : gam <= m / 2.

Definition gap (used : list R) : Prop := forall s, In s used -> s <= Rnd f used - gam.

Lemma P_shift l (T T' d : R) : (forall s, In s l -> s <= T) -> T + d <= T' -> 0 <= d ->
  P l T + INR (length l) * (d * d) <= P l T'.
Proof.
  intros Hs HT Hd. induction l as [|s r IH]; [cbn; lra|].
  rewrite !P_cons. change (length (s :: r)) with (S (length r)). rewrite S_INR.
  assert (IH' := IH (fun x Hx => Hs x (or_intror Hx))). pose proof (Hs s (or_introl eq_refl)).
  assert (Rsqr (T - s) + d * d <= Rsqr (T' - s)); [|lra]. unfold Rsqr. nra.
Qed.

Lemma gap_step used t : ok_used f used -> (forall s, In s used -> s <= t) -> m <= Rnd f used - t -> gap (used ++ [t]).
Proof.
  intros Hok Hle Ht. destruct (ok_step f used t Hf Hok Hle ltac:(lra)) as [Hok' [Hdec Htl]].
  destruct Hok as [Hne [HP _]]. destruct Hok' as [_ [HP' _]].
  assert (G : t <= Rnd f (used ++ [t]) - gam).
  { destruct (Rle_dec t (Rnd f (used ++ [t]) - gam)) as [G|G]; [exact G|exfalso].
    rewrite P_app in HP'. set (T := Rnd f (used ++ [t])) in *.
    assert (HS : P used T + INR (length used) * (m / 2 * (m / 2)) <= P used (Rnd f used)).
    { apply P_shift; [|lra|lra]. intros s Hs. specialize (Hle s Hs). lra. }
    assert (1 <= INR (length used)).
    { destruct used as [|x u]; [congruence|]. change (length (x :: u)) with (S (length u)). rewrite S_INR. pose proof (pos_INR (length u)). lra. }
    change (P [t] T) with (Rsqr (T - t) + 0) in HP'. unfold Rsqr in HP'.
    assert ((T - t) * (T - t) < m / 2 * (m / 2)) by nra. nra. }
  intros s Hs. apply in_app_or in Hs. destruct Hs as [Hs|[<-|[]]]; [specialize (Hle s Hs); lra|exact G].
Qed.

Lemma Rused_gap used rest : ok_used f used -> Rsorted (used ++ rest) -> gap used -> gap (fst (Rused f m used rest)).
Proof.
  revert used; induction rest as [|t r IH]; intros used Hok Hs Hgp; cbn; [exact Hgp|].
  destruct (Rlt_dec (Rnd f used - t) m) as [L|L]; cbn; [exact Hgp|].
  assert (Hle : forall s, In s used -> s <= t).
  { clear - Hs. induction used as [|x u IH]; intros s Hin; [destruct Hin|].
    cbn in Hs. inversion Hs as [|? ? Hs' HF]; subst. destruct Hin as [<-|Hin].
    - rewrite Forall_forall in HF. apply HF. apply in_or_app; right; left; reflexivity.
    - apply IH; assumption. }
  apply IH.
  - apply (ok_step f used t Hf Hok Hle ltac:(lra)).
  - rewrite <- app_assoc. exact Hs.
  - apply gap_step; auto. lra.
Qed.

Lemma Rloop_prefix u v r r' : Rused f m u (v ++ r) = (u ++ v, r) -> (forall t, In t r' -> Rnd f (u ++ v) - t < m) ->
  Rloop f m u (v ++ r') = Rnd f (u ++ v).
Proof.
  revert u; induction v as [|t v IH]; intros u H Hr.
  - cbn [app]. rewrite app_nil_r in *. destruct r' as [|t r']; [reflexivity|]. cbn.
    destruct (Rlt_dec (Rnd f u - t) m) as [L|L]; [reflexivity|]. exfalso. apply L, Hr. left; reflexivity.
  - cbn [app Rused Rloop] in *. destruct (Rlt_dec (Rnd f u - t) m) as [L|L].
    + exfalso. apply (f_equal fst) in H. cbn [fst] in H. apply (f_equal (@length R)) in H. rewrite app_length in H. cbn in H. lia.
    + change (u ++ t :: v) with (u ++ [t] ++ v) in *. rewrite app_assoc in *. apply IH; assumption.
Qed.

(** the result depends only on the values at least [gam] below it *)
Lemma RF_gap_split ts : ts <> [] ->
  exists used rest, Rsort ts = used ++ rest /\ used <> [] /\ RF f m ts = Rnd f used /\ gap used /\
    (forall t, In t rest -> RF f m ts - t < m) /\
    (forall ts' rest', Rsort ts' = used ++ rest' -> (forall t, In t rest' -> RF f m ts - t < m) -> RF f m ts' = RF f m ts) /\
    (forall t, In t ts -> RF f m ts <= t + f).
Proof.
  intros Hne. pose proof (Rsort_sorted ts) as Hs.
  destruct (Rsort ts) as [|t r] eqn:E.
  { pose proof (Rsort_perm ts) as Hp. rewrite E in Hp. apply Permutation_nil in Hp. congruence. }
  assert (HR : RF f m ts = Rnd f (fst (Rused f m [t] r))) by (unfold RF; rewrite E; apply Rloop_used). rewrite HR.
  destruct (Rused_ok f m [t] r Hf Hm (ok_singleton f t Hf) Hs) as [H1 [H2 H3]].
  exists (fst (Rused f m [t] r)), (snd (Rused f m [t] r)).
  split; [rewrite Rused_app; reflexivity|]. split; [apply H1|]. split; [reflexivity|].
  split. { apply Rused_gap; [apply ok_singleton; exact Hf|exact Hs|]. intros s [<-|[]]. rewrite Rnd_singleton. lra. }
  split; [exact H3|].
  assert (Hpre : exists v, Rused f m [t] r = ([t] ++ v, snd (Rused f m [t] r)) /\ r = v ++ snd (Rused f m [t] r)).
  { assert (G : forall u rest, exists v, fst (Rused f m u rest) = u ++ v).
    { intros u rest. revert u. induction rest as [|x rest IH]; intros u; cbn; [exists []; symmetry; apply app_nil_r|].
      destruct (Rlt_dec _ _); cbn; [exists []; symmetry; apply app_nil_r|]. destruct (IH (u ++ [x])) as [v Hv]. exists (x :: v).
      rewrite Hv, <- app_assoc. reflexivity. }
    destruct (G [t] r) as [v Hv]. exists v. split; [rewrite <- Hv; apply surjective_pairing|].
    pose proof (Rused_app f m [t] r) as Ha. rewrite Hv in Ha. cbn in Ha. injection Ha as Ha. symmetry. exact Ha. }
  split.
  - intros ts' rest' E' Hr'. destruct Hpre as [v [Hv Hr]].
    assert (Hfst : fst (Rused f m [t] r) = [t] ++ v) by (rewrite Hv; reflexivity).
    rewrite Hfst in E', Hr' |- *. unfold RF. rewrite E'. cbn [app].
    apply (Rloop_prefix [t] v (snd (Rused f m [t] r)) rest'); [|exact Hr']. rewrite <- Hr. exact Hv.
  - intros x Hx. eapply Rle_trans; [exact H2|]. rewrite Rnd_singleton.
    assert (t <= x); [|lra]. assert (Hin : In x (t :: r)) by (rewrite <- E; eapply Permutation_in; [symmetry; apply Rsort_perm|exact Hx]).
    destruct Hin as [<-|Hin]; [lra|]. inversion Hs as [|? ? ? HF]; subst. rewrite Forall_forall in HF. apply HF, Hin.
Qed.

Definition lowo (c : R) (o : option R) : option R :=
  match o with Some t => if Rlt_dec t c then Some t else None | None => None end.
Definition RFo (l : list R) : option R := match l with [] => None | _ => Some (RF f m l) end.

Lemma RFo_some l : l <> [] -> RFo l = Some (RF f m l).
Proof. destruct l; [congruence|reflexivity]. Qed.

Lemma below_high c l : Rsorted l -> exists hi, l = below c l ++ hi /\ forall t, In t hi -> c <= t.
Proof.
  intros H. induction H as [|x r Hr IH HF]; [exists []; split; [reflexivity|intros t []]|].
  cbn. destruct (Rlt_dec x c) as [L|L].
  - destruct IH as [hi [E Hhi]]. exists hi. split; [cbn [app]; f_equal; exact E|exact Hhi].
  - exists (x :: r). assert (E : below c r = []).
    { destruct (below c r) as [|y s] eqn:E; [reflexivity|exfalso].
      assert (Hy : In y (below c r)) by (rewrite E; left; reflexivity). apply in_below in Hy. rewrite Forall_forall in HF.
      destruct Hy as [Hy1 Hy2]. specialize (HF y Hy1). lra. }
    split; [change (x :: r = below c r ++ x :: r); rewrite E; reflexivity|]. intros t [<-|Ht]; [lra|]. rewrite Forall_forall in HF. specialize (HF t Ht). lra.
Qed.

Lemma RFo_local c l : lowo (c + gam) (RFo l) = lowo (c + gam) (RFo (below c l)).
Proof.
  destruct (list_eq_dec Req_EM_T l []) as [->|Hl]; [reflexivity|].
  rewrite (RFo_some l Hl).
  destruct (RF_gap_split l Hl) as [used [rest [E [Hu [HR [Hgp [Hrest [Huniq _]]]]]]]].
  unfold lowo at 1. destruct (Rlt_dec (RF f m l) (c + gam)) as [L|L].
  - (* the values used are below c *)
    assert (Hub : below c used = used). { apply below_all. intros t Ht. specialize (Hgp t Ht). rewrite <- HR in Hgp. lra. }
    assert (E' : Rsort (below c l) = used ++ below c rest) by (rewrite Rsort_below, E, below_app, Hub; reflexivity).
    assert (Hl' : below c l <> []).
    { intros E0. rewrite E0 in E'. cbn in E'. destruct used; [congruence|discriminate]. }
    rewrite (RFo_some _ Hl'), (Huniq (below c l) (below c rest) E').
    + unfold lowo. destruct (Rlt_dec _ _); [reflexivity|contradiction].
    + intros t Ht. apply in_below in Ht. apply Hrest, Ht.
  - destruct (list_eq_dec Req_EM_T (below c l) []) as [E0|Hl']; [rewrite E0; reflexivity|].
    rewrite (RFo_some _ Hl'). unfold lowo. destruct (Rlt_dec (RF f m (below c l)) (c + gam)) as [L'|L']; [exfalso|reflexivity].
    destruct (RF_gap_split (below c l) Hl') as [used' [rest' [E' [Hu' [HR' [Hgp' [Hrest' [Huniq' _]]]]]]]].
    destruct (below_high c (Rsort l) (Rsort_sorted l)) as [hi [Eh Hhi]].
    rewrite <- Rsort_below, E' in Eh. rewrite <- app_assoc in Eh.
    apply L. rewrite (Huniq' l (rest' ++ hi) Eh); [exact L'|].
    intros t Ht. apply in_app_or in Ht. destruct Ht as [Ht|Ht]; [apply Hrest', Ht|]. specialize (Hhi t Ht). lra.
Qed.

Lemma RFo_le l t : In t l -> exists u, RFo l = Some u /\ u <= t + f.
Proof.
  intros Ht. assert (Hl : l <> []) by (intros ->; destruct Ht). exists (RF f m l). split; [apply RFo_some, Hl|].
  destruct (RF_gap_split l Hl) as [used [rest [_ [_ [_ [_ [_ [_ H]]]]]]]]. apply H, Ht.
Qed.

End Gap.

(** ** times below a threshold *)
Definition low (c : R) (T : time_map) : time_map := fun i => lowo c (T i).

Lemma lowo_omin c a b : lowo c (omin a b) = omin (lowo c a) (lowo c b).
Proof.
  destruct a as [x|], b as [y|]; cbn; try reflexivity; try (destruct (Rlt_dec x c); reflexivity).
  unfold Rmin. destruct (Rle_dec x y); destruct (Rlt_dec x c), (Rlt_dec y c); cbn; try reflexivity;
    unfold Rmin; try destruct (Rle_dec x y); try reflexivity; exfalso; lra.
Qed.

Lemma dmin_low dims c T i d : dmin dims (low c T) i d = lowo c (dmin dims T i d).
Proof.
  unfold dmin. induction (nbrs_in dims i d) as [|j l IH]; [reflexivity|]. cbn [map fold_right]. rewrite lowo_omin, IH. reflexivity.
Qed.

Lemma somes_low c ms : somes (map (lowo c) ms) = below c (somes ms).
Proof.
  induction ms as [|[t|] ms IH]; [reflexivity| |exact IH].
  change (somes (Some t :: ms)) with (t :: somes ms). cbn [map lowo]. unfold below in *. cbn [filter].
  destruct (Rlt_dec t c); [|exact IH]. change (somes (Some t :: map (lowo c) ms)) with (t :: somes (map (lowo c) ms)). rewrite IH. reflexivity.
Qed.

Lemma dmins_low dims c T i : somes (dmins dims (low c T) i) = below c (somes (dmins dims T i)).
Proof.
  rewrite <- somes_low. f_equal. unfold dmins. rewrite map_map. apply map_ext. intros d. apply dmin_low.
Qed.

Lemma below_below c p l : (c <= p)%R -> below c (below p l) = below c l.
Proof.
  intros H. induction l as [|x r IH]; [reflexivity|]. unfold below in *. cbn [filter]. destruct (Rlt_dec x p) as [L|L]; cbn [filter]; destruct (Rlt_dec x c); try lra; rewrite ?IH; reflexivity.
Qed.

Section Mu.
Variable dims : list Z.
Variable f : Z -> R.
Variable gam : R.
Hypothesis Hg0 : (0 < gam)%R.
Hypothesis Hgm : (gam <= Rmargin / 2)%R.
Hypothesis Hp : proper dims.
Notation n := (Z.to_nat (box_size dims)).
Notation M := Rmargin.

Notation lev k := (INR k * gam)%R.

Definition cons (k : nat) (T : time_map) (x : Z) : Prop :=
  lowo (lev k + gam) (T x) = lowo (lev k + gam) (RFo (f x) M (somes (dmins dims (low (lev k) T) x))).

Definition odec (a b : option R) : {a = b} + {a <> b}.
Proof. decide equality. apply Req_EM_T. Defined.

Definition bad (k : nat) (T : time_map) : nat :=
  length (filter (fun x => if odec (lowo (lev k + gam) (T x))
     (lowo (lev k + gam) (RFo (f x) M (somes (dmins dims (low (lev k) T) x)))) then false else true) (zseq n)).

Fixpoint mu (k r : nat) (T : time_map) : nat :=
  match r with O => O | S r => (bad k T * Nat.pow (n + 1) r + mu (S k) r T)%nat end.

Lemma bad_le k T : (bad k T <= n)%nat.
Proof.
  unfold bad. rewrite <- (length_zseq n) at 2. generalize (zseq n) as l.
  induction l as [|x l IH]; cbn; [lia|]. destruct (odec _ _); cbn; lia.
Qed.

Lemma mu_lt k r T : (mu k r T < Nat.pow (n + 1) r)%nat.
Proof.
  revert k; induction r as [|r IH]; intros k; cbn [mu Nat.pow]; [lia|]. specialize (IH (S k)). pose proof (bad_le k T). nia.
Qed.

Lemma mu_eq k r T T' : (forall j, (k <= j < k + r)%nat -> bad j T' = bad j T) -> mu k r T' = mu k r T.
Proof.
  revert k; induction r as [|r IH]; intros k H; cbn [mu]; [reflexivity|]. rewrite (H k) by lia. rewrite (IH (S k)); [reflexivity|].
  intros j Hj. apply H. lia.
Qed.

Lemma mu_dec k r T T' b : (k <= b < k + r)%nat -> (forall j, (k <= j < b)%nat -> bad j T' = bad j T) ->
  (bad b T' < bad b T)%nat -> (mu k r T' < mu k r T)%nat.
Proof.
  revert k; induction r as [|r IH]; intros k Hb Heq Hlt; [lia|]. cbn [mu].
  destruct (Nat.eq_dec b k) as [->|Hne].
  - pose proof (mu_lt (S k) r T'). nia.
  - rewrite (Heq k) by lia. specialize (IH (S k) ltac:(lia) ltac:(intros; apply Heq; lia) Hlt). lia.
Qed.

(** relaxing cell [x]: it takes its update, the others keep their times *)
Definition relax (T : time_map) (x : Z) (T' : time_map) : Prop :=
  T' x = eik dims (f x) T x /\ forall k, k <> x -> T' k = T k.

Lemma eik_RFo T x : eik dims (f x) T x = RFo (f x) M (upw (T x) (dmins dims T x)).
Proof. unfold eik. destruct (upw (T x) (dmins dims T x)); reflexivity. Qed.

Lemma upw_low c T x : lowo c (T x) = None -> below c (upw (T x) (dmins dims T x)) = somes (dmins dims (low c T) x).
Proof.
  intros H. rewrite dmins_low. destruct (T x) as [p|] eqn:E; cbn [upw]; [|reflexivity].
  apply below_below. cbn in H. destruct (Rlt_dec p c); [discriminate|lra].
Qed.

Lemma filter_ext_len {A} (p q : A -> bool) l : (forall x, In x l -> p x = q x) -> length (filter p l) = length (filter q l).
Proof.
  induction l as [|x r IH]; intros H; [reflexivity|]. cbn. rewrite (H x (or_introl eq_refl)).
  destruct (q x); cbn; rewrite IH; auto; intros; apply H; right; assumption.
Qed.

Lemma dmins_ext_all T T' x : (forall k, T' k = T k) -> dmins dims T' x = dmins dims T x.
Proof.
  intros H. unfold dmins. apply map_ext. intros d. unfold dmin. f_equal. apply map_ext. intros k. apply H.
Qed.

(** levels only see the times below them *)
Lemma bad_low k c T T' : (lev k + gam <= c)%R -> (forall x, lowo c (T' x) = lowo c (T x)) -> bad k T' = bad k T.
Proof.
  intros Hc H. assert (Hlo : forall c', (c' <= c)%R -> forall x, lowo c' (T' x) = lowo c' (T x)).
  { intros c' Hc' x. specialize (H x). destruct (T' x) as [a|], (T x) as [b|]; cbn in *; try reflexivity;
    repeat match goal with H : context[Rlt_dec ?u ?v] |- _ => destruct (Rlt_dec u v) | |- context[Rlt_dec ?u ?v] => destruct (Rlt_dec u v) end;
    try reflexivity; try congruence; exfalso; lra. }
  unfold bad. apply filter_ext_len. intros x _.
  rewrite (Hlo (lev k + gam)%R) by lra.
  assert (E : dmins dims (low (lev k) T') x = dmins dims (low (lev k) T) x).
  { apply dmins_ext_all. intros j. apply Hlo. lra. }
  rewrite E. reflexivity.
Qed.

Lemma level_of t : (0 <= t)%R -> exists k, (lev k <= t < lev k + gam)%R.
Proof.
  intros Ht. pose proof (archimed (t / gam)) as [A B].
  assert (Hz : 0 < up (t / gam)).
  { apply lt_IZR. assert (0 <= t / gam)%R by (apply Rmult_le_pos; [exact Ht|left; apply Rinv_0_lt_compat, Hg0]). lra. }
  exists (Z.to_nat (up (t / gam) - 1)). rewrite INR_IZR_INZ, Z2Nat.id by lia. rewrite minus_IZR.
  assert (E : t = (t / gam * gam)%R) by (field; lra).
  set (z := IZR (up (t / gam))) in *. set (w := (t / gam)%R) in *. split; nra.
Qed.

Lemma lowo_none c o : lowo c o = None <-> forall t, o = Some t -> (c <= t)%R.
Proof.
  destruct o as [t|]; cbn; [|split; [discriminate|reflexivity]]. destruct (Rlt_dec t c) as [L|L]; split; intros H; try discriminate; try reflexivity.
  - specialize (H t eq_refl). lra.
  - intros s E; injection E as <-; lra.
Qed.

Theorem relax_mu K T T' x : (gam <= f x)%R -> (0 < f x)%R -> 0 <= x < box_size dims ->
  (forall t, T x = Some t -> (0 <= t)%R) -> (forall t, T' x = Some t -> (0 <= t)%R) ->
  relax T x T' ->
  (mu 0 K T' < mu 0 K T)%nat \/
  (mu 0 K T' = mu 0 K T /\ (forall k, lowo (lev K) (T' k) = lowo (lev K) (T k)) /\
   (T' x = T x \/ lowo (lev K) (T x) = None)).
Proof.
  intros Hgf Hfx Hx Hn Hn' [Hq Ho].
  destruct (odec (T' x) (T x)) as [E|Hne].
  { right. assert (Hall : forall k, T' k = T k). { intros k. destruct (Z.eq_dec k x) as [->|]; auto. }
    split; [|split; [intros; rewrite Hall; reflexivity|left; exact E]]. apply mu_eq. intros j Hj.
    apply (bad_low j (lev j + gam)%R); [lra|]. intros y. rewrite Hall. reflexivity. }
  assert (Hlow : (lowo (lev K) (T x) = None /\ lowo (lev K) (T' x) = None) \/
     exists t, (0 <= t < lev K)%R /\ (forall c, (c <= t)%R -> lowo c (T x) = None /\ lowo c (T' x) = None) /\
                   (T x = Some t \/ T' x = Some t)).
  { destruct (odec (lowo (lev K) (T x)) None) as [L1|L1]; destruct (odec (lowo (lev K) (T' x)) None) as [L2|L2]; [left; split; assumption|right..].
    - destruct (T' x) as [q|] eqn:Eq; [|exfalso; apply L2; reflexivity].
      cbn in L2. destruct (Rlt_dec q (lev K)) as [L|L]; [|congruence].
      exists q. split; [split; [apply Hn'; reflexivity|exact L]|]. split; [|right; reflexivity].
      intros c Hc. split; [|cbn; destruct (Rlt_dec q c); [lra|reflexivity]].
      apply lowo_none. intros t Ht. rewrite lowo_none in L1. specialize (L1 t Ht). lra.
    - destruct (T x) as [q|] eqn:Eq; [|exfalso; apply L1; reflexivity].
      cbn in L1. destruct (Rlt_dec q (lev K)) as [L|L]; [|congruence].
      exists q. split; [split; [apply Hn; reflexivity|exact L]|]. split; [|left; reflexivity].
      intros c Hc. split; [cbn; destruct (Rlt_dec q c); [lra|reflexivity]|].
      apply lowo_none. intros t Ht. rewrite lowo_none in L2. specialize (L2 t Ht). lra.
    - destruct (T x) as [a|] eqn:Ea; [|exfalso; apply L1; reflexivity].
      destruct (T' x) as [b|] eqn:Eb; [|exfalso; apply L2; reflexivity].
      cbn in L1, L2. destruct (Rlt_dec a (lev K)) as [La|La]; [|congruence]. destruct (Rlt_dec b (lev K)) as [Lb|Lb]; [|congruence].
      specialize (Hn a eq_refl). specialize (Hn' b eq_refl).
      destruct (Rle_dec a b) as [Hab|Hab].
      + exists a. split; [lra|]. split; [|left; reflexivity]. intros c Hc. cbn. destruct (Rlt_dec a c), (Rlt_dec b c); try lra. auto.
      + exists b. split; [lra|]. split; [|right; reflexivity]. intros c Hc. cbn. destruct (Rlt_dec a c), (Rlt_dec b c); try lra. auto. }
  destruct Hlow as [[L1 L2]|[t [Ht [Hc Hor]]]].
  - right. assert (Hall : forall k, lowo (lev K) (T' k) = lowo (lev K) (T k)).
    { intros k. destruct (Z.eq_dec k x) as [->|Hk]; [congruence|rewrite Ho by exact Hk; reflexivity]. }
    split; [|split; [exact Hall|right; exact L1]]. apply mu_eq. intros j Hj. apply (bad_low j (lev K)); [|exact Hall].
    assert (HSj : (INR (S j) <= INR K)%R) by (apply le_INR; lia). rewrite S_INR in HSj. nra.
  - left. destruct (level_of t (proj1 Ht)) as [k [K1 K2]].
    assert (HkK : (k < K)%nat).
    { apply INR_lt. destruct (Rlt_dec (INR k) (INR K)) as [L|L]; [exact L|exfalso]. nra. }
    assert (Hall : forall c y, (c <= t)%R -> lowo c (T' y) = lowo c (T y)).
    { intros c y Hct. destruct (Z.eq_dec y x) as [->|Hy]; [|rewrite Ho by exact Hy; reflexivity].
      destruct (Hc c Hct) as [-> ->]. reflexivity. }
    apply (mu_dec 0 K T T' k); [lia| |].
    + intros j Hj. apply (bad_low j (lev k)); [|intros y; apply Hall, K1].
      assert (HSj : (INR (S j) <= INR k)%R) by (apply le_INR; lia). rewrite S_INR in HSj. nra.
    + assert (EL : forall y, dmins dims (low (lev k) T') y = dmins dims (low (lev k) T) y).
      { intros y. apply dmins_ext_all. intros j. apply Hall, K1. }
      assert (C' : lowo (lev k + gam) (T' x) = lowo (lev k + gam) (RFo (f x) M (somes (dmins dims (low (lev k) T) x)))).
      { rewrite Hq, eik_RFo, (RFo_local (f x) M gam Hfx Rmargin_pos Hg0 Hgf Hgm (lev k)).
        rewrite upw_low; [reflexivity|]. apply Hc, K1. }
      assert (C : lowo (lev k + gam) (T x) <> lowo (lev k + gam) (RFo (f x) M (somes (dmins dims (low (lev k) T) x)))).
      { intros C. rewrite <- C' in C. destruct Hor as [Hor|Hor].
        - rewrite Hor in C. cbn in C. destruct (Rlt_dec t (lev k + gam)) as [L|L]; [|lra].
          destruct (T' x) as [q|]; cbn in C; [|discriminate]. destruct (Rlt_dec q (lev k + gam)); [|discriminate]. congruence.
        - rewrite Hor in C. cbn in C. destruct (Rlt_dec t (lev k + gam)) as [L|L]; [|lra].
          destruct (T x) as [q|]; cbn in C; [|discriminate]. destruct (Rlt_dec q (lev k + gam)); [|discriminate]. congruence. }
      unfold bad. apply (filter_lt _ _ _ x).
      * intros y. rewrite EL. destruct (Z.eq_dec y x) as [->|Hy].
        -- destruct (odec (lowo (lev k + gam) (T' x)) _) as [E0|E0]; [discriminate|contradiction].
        -- rewrite (Ho y Hy). auto.
      * apply in_zseq. rewrite Z2Nat.id; lia.
      * rewrite EL. destruct (odec (lowo (lev k + gam) (T' x)) _) as [E0|E0]; [reflexivity|contradiction].
      * destruct (odec (lowo (lev k + gam) (T x)) _) as [E0|E0]; [contradiction|reflexivity].
Qed.
End Mu.

(** UntidyX.v - the untidy queue with exact arithmetic: times and buckets (C28, C66). *)
From Coq Require Import Reals Lra Permutation.
From Verif Require Import Base BaseFacts Num NumXR Grid UntidyModel UntidySpec Untidy Lifecycle UFMMStruct.
Open Scope Z_scope.

Lemma floor_spec x : (IZR (Rfloor x) <= x < IZR (Rfloor x) + 1)%R.
Proof. unfold Rfloor. rewrite minus_IZR. destruct (archimed x). lra. Qed.

Lemma mod_shift i i0 s : 0 < s -> 0 <= i < s -> 0 <= i0 < s -> i <> i0 ->
  (i - (i0 + 1) mod s) mod s = (i - i0) mod s - 1.
Proof.
  intros Hs Hi Hi0 Hne. assert (E : (i - (i0 + 1) mod s) mod s = ((i - i0) mod s - 1) mod s).
  { rewrite Zminus_mod_idemp_r, Zminus_mod_idemp_l. f_equal. lia. }
  rewrite E. pose proof (Z.mod_pos_bound (i - i0) s Hs).
  assert ((i - i0) mod s <> 0).
  { intros K. apply Z.mod_divide in K; [|lia]. destruct K as [k K]. assert (k < 1) by nia. assert (-1 < k) by nia. assert (k = 0) by lia. subst k. lia. }
  apply Z.mod_small. lia.
Qed.

Section QX.
Variables (size : Z) (inc : R).
Hypothesis Hsize : 0 < size.
Hypothesis Hsize2 : 2 * size <= 4294967296.
Hypothesis Hinc : (0 < inc)%R.
Let delta : R := (inc / IZR size)%R.

Lemma size_pos : (0 < IZR size)%R. Proof. apply IZR_lt. exact Hsize. Qed.
Lemma delta_pos : (0 < delta)%R.
Proof. unfold delta. apply Rdiv_lt_0_compat; [exact Hinc|apply size_pos]. Qed.
Lemma delta_size : (IZR size * delta = inc)%R.
Proof. unfold delta. pose proof size_pos. field. lra. Qed.

(** time interval of a bucket at distance [off] from the current one *)
Definition in_slot (t0 : R) (off : Z) (r : R) : Prop := (t0 + IZR off * delta <= r < t0 + (IZR off + 1) * delta)%R.

Record QI (T : Z -> option R) (q : uq (N := XR)) (t0 : R) : Prop := {
  qi_ui : UI q;
  qi_t0 : uq_t0 q = XFin t0;
  qi_inc : uq_inc q = XFin inc;
  qi_delta : uq_delta q = XFin delta;
  qi_size : uq_size q = size;
  qi_slot : forall x i, 0 <= i < size -> In x (bucket q i) ->
     exists r, T x = Some r /\ in_slot t0 ((i - uq_i0 q) mod size) r
}.

Lemma bucket_X T q t0 t : QI T q t0 -> (t0 <= t < t0 + inc)%R ->
  exists i, uq_bucket q (XFin t : XR) = Ok i /\ 0 <= i < size /\ in_slot t0 ((i - uq_i0 q) mod size) t.
Proof.
  intros [U Et0 Einc Ed Es _] Ht. pose proof size_pos as Hsp.
  set (v := ((t - t0) * IZR size / inc)%R).
  assert (Ev : nfloor (ndiv (nmul (nsub (XFin t : XR) (uq_t0 q)) (nofZ (uq_size q))) (uq_inc q)) = Some (Rfloor v)).
  { rewrite Et0, Einc, Es. cbn. unfold Reqb. destruct (Req_EM_T inc 0) as [K|K]; [lra|]. reflexivity. }
  pose proof (floor_spec v) as Hfl.
  assert (Hi : (0 < / inc)%R) by (apply Rinv_0_lt_compat, Hinc).
  assert (Hv0 : (0 <= v)%R) by (unfold v, Rdiv; apply Rmult_le_pos; [apply Rmult_le_pos; lra|lra]).
  assert (Hv1 : (v < IZR size)%R).
  { unfold v, Rdiv. apply (Rmult_lt_reg_r inc); [exact Hinc|]. rewrite Rmult_assoc, Rinv_l by lra. nra. }
  assert (Hf0 : 0 <= Rfloor v) by (apply Z.lt_succ_r, lt_IZR; unfold Z.succ; rewrite plus_IZR; lra).
  assert (Hf1 : Rfloor v < size) by (apply lt_IZR; lra).
  set (z := Rfloor v) in *.
  unfold uq_bucket, cast_floor_u32. rewrite Ev.
  destruct (Z.leb_spec 0 z); [|lia]. destruct (Z.ltb_spec z 4294967296); [|lia]. cbn [andb bind].
  rewrite Es. destruct (Z.eqb_spec size 0); [lia|]. destruct (Z.leb_spec size z); [lia|].
  pose proof (ui_i0 _ U) as Hi0. rewrite Es in Hi0.
  assert (Eu : u32 (z + uq_i0 q) = z + uq_i0 q) by (unfold u32; apply Z.mod_small; lia).
  eexists. split; [reflexivity|]. rewrite Eu. split; [apply Z.mod_pos_bound, Hsize|].
  rewrite Zminus_mod_idemp_l. replace (z + uq_i0 q - uq_i0 q) with z by lia. rewrite Z.mod_small by lia.
  assert (Ht' : (t = t0 + v * delta)%R) by (unfold v, delta; field; lra).
  unfold in_slot. rewrite Ht'. pose proof delta_pos. split; nra.
Qed.

Lemma bucket_fails T q t0 t : QI T q t0 -> (t < t0)%R -> uq_bucket q (XFin t : XR) = Fail UB.
Proof.
  intros [U Et0 Einc Ed Es _] Ht. pose proof size_pos as Hsp.
  set (v := ((t - t0) * IZR size / inc)%R).
  assert (Ev : nfloor (ndiv (nmul (nsub (XFin t : XR) (uq_t0 q)) (nofZ (uq_size q))) (uq_inc q)) = Some (Rfloor v)).
  { rewrite Et0, Einc, Es. cbn. unfold Reqb. destruct (Req_EM_T inc 0) as [K|K]; [lra|]. reflexivity. }
  assert (Hv : (v < 0)%R).
  { unfold v, Rdiv. pose proof (Rinv_0_lt_compat _ Hinc). assert (0 < (t0 - t) * IZR size * / inc)%R by (apply Rmult_lt_0_compat; [apply Rmult_lt_0_compat; lra|lra]). lra. }
  pose proof (floor_spec v) as Hfl. assert (Hf : Rfloor v < 0) by (apply lt_IZR; lra).
  unfold uq_bucket, cast_floor_u32. rewrite Ev. destruct (Z.leb_spec 0 (Rfloor v)); [lia|]. reflexivity.
Qed.

(** a time with no number, as infinity, has no bucket *)
Lemma bucket_inf T q t0 : QI T q t0 -> uq_bucket q (XPInf : XR) = Fail UB.
Proof.
  intros [U Et0 Einc Ed Es _]. unfold uq_bucket, cast_floor_u32. rewrite Et0, Einc, Es.
  assert (Hs : (0 < IZR size)%R) by apply size_pos.
  assert (Ev : nfloor (ndiv (nmul (nsub (XPInf : XR) (XFin t0 : XR)) (nofZ size)) (XFin inc : XR)) = None).
  { cbn. unfold xinf_of_sign, Rltb. destruct (Rlt_dec 0 (IZR size)); [|lra]. cbn. unfold Rltb. destruct (Rlt_dec inc 0); [lra|]. reflexivity. }
  rewrite Ev. reflexivity.
Qed.

Definition setT (T : Z -> option R) (e : Z) (t : R) : Z -> option R := fun x => if Z.eq_dec x e then Some t else T x.

(** push into a queue that is not empty *)
Lemma push_X T q t0 e t : QI T q t0 -> bag q <> [] -> ~ In e (bag q) -> (t0 <= t < t0 + inc)%R ->
  exists q' b, uq_push q e (XFin t : XR) = Ok (q', b) /\ QI (setT T e t) q' t0.
Proof.
  intros I Hne He Ht. pose proof I as [U Et0 Einc Ed Es Hsl]. destruct (bucket_X T q t0 t I Ht) as [b [Eb [Hb Hslot]]].
  assert (Hnb : uq_nb q <> 0) by (rewrite (ui_nb _ U); destruct (bag q); [congruence|cbn; lia]).
  assert (Hex : exists q' b', uq_push q e (XFin t : XR) = Ok (q', b')).
  { unfold uq_push, uq_empty. destruct (Z.eqb_spec (uq_nb q) 0); [contradiction|]. rewrite Eb. cbn [bind].
    destruct (vget_in_range (uq_tab q) b) as [l Ev]; [pose proof (ui_len _ U); lia|]. rewrite Ev. cbn [bind]. eauto. }
  destruct Hex as [q' [b' Hp]]. exists q', b'. split; [exact Hp|].
  assert (b' = b).
  { unfold uq_push, uq_empty in Hp. destruct (Z.eqb_spec (uq_nb q) 0); [contradiction|]. rewrite Eb in Hp. cbn [bind] in Hp.
    apply bind_ok in Hp. destruct Hp as [l [_ Hp]]. injection Hp as _ <-. reflexivity. }
  subst b'. destruct (push_spec _ _ _ _ _ U Hp) as [U' [P [Hbr [Es' [B1 [B2 [_ Hk]]]]]]]. destruct (Hk Hnb) as [Ei0 Et0'].
  destruct (uq_push_same _ _ _ _ Hp) as [_ [_ [S1 S2]]]. cbn [fst] in S1, S2.
  constructor; auto; try congruence.
  intros x i Hi Hx. rewrite Ei0. unfold setT. destruct (Z.eq_dec i b) as [->|Hne'].
  - rewrite B1 in Hx. destruct (Z.eq_dec x e) as [->|Hxe]; [eauto|]. destruct Hx as [Hx|Hx]; [congruence|]. auto.
  - rewrite B2 in Hx by lia. destruct (Z.eq_dec x e) as [->|Hxe]; [|auto]. exfalso. apply He. eapply (bag_bucket q e i U); [lia|exact Hx].
Qed.

Lemma incr_X T q t0 e bk t : QI T q t0 -> NoDup (bag q) -> 0 <= bk < size -> In e (bucket q bk) -> (t0 <= t < t0 + inc)%R ->
  exists q' b, uq_increase q e bk (XFin t : XR) = Ok (q', b) /\ QI (setT T e t) q' t0.
Proof.
  intros I Hnd Hbk Hin Ht. pose proof I as [U Et0 Einc Ed Es Hsl]. destruct (bucket_X T q t0 t I Ht) as [b [Eb [Hb Hslot]]].
  pose proof (ui_len _ U) as Hlen.
  assert (Hex : exists q', uq_increase q e bk (XFin t : XR) = Ok (q', b)).
  { unfold uq_increase. rewrite Eb. cbn [bind]. destruct (b =? u32 bk); [eauto|].
    destruct (vget_in_range (uq_tab q) bk) as [l Ev]; [lia|]. rewrite Ev. cbn [bind].
    match goal with |- context [vget ?L b] => destruct (vget_in_range L b) as [l2 Ev2]; [rewrite length_lset; lia|] end. rewrite Ev2. cbn [bind]. eauto. }
  destruct Hex as [q' Hp]. exists q', b. split; [exact Hp|].
  assert (Hsz4 : uq_size q < 4294967296) by lia. assert (Hbk' : 0 <= bk < uq_size q) by lia.
  destruct (incr_spec _ _ _ _ _ _ U Hsz4 Hnd Hbk' Hin Hp) as [U' [P [Hbr [Es' [_ [Hin' [Ei0 [Et0' [Hoth _]]]]]]]]].
  destruct (uq_increase_same _ _ _ _ _ Hp) as [_ [_ [S1 S2]]]. cbn [fst] in S1, S2.
  constructor; auto; try congruence.
  intros x i Hi Hx. rewrite Ei0. unfold setT. destruct (Z.eq_dec x e) as [->|Hxe].
  - assert (i = b).
    { eapply (bucket_of_unique q'); [exact U'|eapply Permutation_NoDup; [symmetry; exact P|exact Hnd]|lia|lia|exact Hx|exact Hin']. }
    subst i. eauto.
  - apply Hsl; [exact Hi|]. apply (Hoth i x); [lia|exact Hxe|exact Hx].
Qed.

Lemma shift_X T fuel : forall q t0 q', QI T q t0 -> uq_shift fuel q = Ok q' -> exists t1, (t0 <= t1)%R /\ QI T q' t1.
Proof.
  induction fuel as [|fuel IH]; intros q t0 q' I H; pose proof I as [U Et0 Einc Ed Es Hsl]; cbn [uq_shift] in H; apply bind_ok in H; destruct H as [b [Hb H]];
    apply vget_ok in Hb; destruct Hb as [Hb0 Hb]; pose proof (bucket_nth _ _ _ U Hb0 Hb) as Eb.
  - destruct b as [|x b]; [discriminate|]. inversion H; subst q'. exists t0. split; [lra|exact I].
  - destruct b as [|x b].
    + pose proof U as [A B C D]. destruct (Z.eqb_spec (uq_size q) 0) as [E|E]; [discriminate|].
      apply (IH _ (t0 + delta)%R) in H.
      * destruct H as [t1 [Ht1 I1]]. exists t1. split; [pose proof delta_pos; lra|exact I1].
      * constructor; cbn [uq_t0 uq_inc uq_delta uq_size uq_i0]; auto.
        -- constructor; cbn [uq_size uq_tab uq_i0 uq_nb]; auto. apply Z.mod_pos_bound. exact A.
        -- rewrite Et0, Ed. reflexivity.
        -- intros x i Hi Hx. assert (Hx' : In x (bucket q i)) by exact Hx. destruct (Hsl x i Hi Hx') as [r [K1 K2]]. exists r. split; [exact K1|].
           assert (Hne : i <> uq_i0 q) by (intros ->; rewrite Eb in Hx'; destruct Hx').
           rewrite Es, mod_shift by (auto; lia). unfold in_slot in *. rewrite minus_IZR. lra.
    + inversion H; subst q'. exists t0. split; [lra|exact I].
Qed.

(** the element top returns is from the earliest slot *)
Lemma top_X T q t0 q1 x : QI T q t0 -> uq_top q = Ok (q1, x) ->
  exists t1 r, (t0 <= t1)%R /\ QI T q1 t1 /\ T x = Some r /\ (t1 <= r < t1 + delta)%R /\
    (forall y s, In y (bag q) -> T y = Some s -> (t1 <= s)%R).
Proof.
  intros I H. pose proof (qi_ui _ _ _ I) as U. destruct (top_spec _ _ _ U H) as [U1 [Et [Es [_ [r Hr]]]]].
  unfold uq_top in H. apply bind_ok in H. destruct H as [q2 [H2 H]]. destruct (shift_X T _ _ _ _ I H2) as [t1 [Ht1 I1]].
  apply bind_ok in H. destruct H as [b [_ H]]. destruct (rev b); [discriminate|]. injection H as -> _.
  exists t1. pose proof I1 as [_ _ _ _ Esz Hsl]. pose proof (ui_i0 _ U1) as Hi0. rewrite Esz in Hi0.
  destruct (Hsl x (uq_i0 q1) Hi0) as [rx [K1 K2]]; [rewrite Hr; apply in_or_app; right; left; reflexivity|].
  rewrite Z.sub_diag, Z.mod_0_l in K2 by lia. unfold in_slot in K2. exists rx. split; [exact Ht1|]. split; [exact I1|]. split; [exact K1|]. split; [lra|].
  intros y s Hy Hs. assert (Hy' : In y (bag q1)) by (unfold bag in *; rewrite Et; exact Hy).
  unfold bag in Hy'. apply in_concat in Hy'. destruct Hy' as [bb [Hbb Hyb]]. apply In_nth with (d := []) in Hbb. destruct Hbb as [n [Hn Hnb]].
  pose proof (ui_len _ U1) as Hlen. destruct (Hsl y (Z.of_nat n)) as [ry [L1 L2]]; [lia|unfold bucket; rewrite Nat2Z.id, Hnb; exact Hyb|].
  assert (ry = s) by congruence. subst ry. unfold in_slot in L2. pose proof (Z.mod_pos_bound (Z.of_nat n - uq_i0 q1) size Hsize) as Hm.
  assert (0 <= IZR ((Z.of_nat n - uq_i0 q1) mod size))%R by (apply IZR_le; lia). pose proof delta_pos. nra.
Qed.

Lemma pop_X T q t0 q' : QI T q t0 -> bag q <> [] -> uq_pop q = Ok q' -> exists t1, (t0 <= t1)%R /\ QI T q' t1.
Proof.
  intros I Hne H. pose proof (qi_ui _ _ _ I) as U. assert (Hnb : uq_nb q <> 0) by (rewrite (ui_nb _ U); destruct (bag q); [congruence|cbn; lia]).
  destruct (top_total q U Hne) as [q1 [x Ht]]. destruct (pop_spec _ _ _ _ U Hnb Ht H) as [U' [P [Es [_ [Ei [Et [Bi Bo]]]]]]].
  destruct (top_X T q t0 q1 x I Ht) as [t1 [r [Ht1 [I1 _]]]]. exists t1. split; [exact Ht1|]. pose proof I1 as [U1 A1 A2 A3 A4 A5].
  destruct (uq_pop_same _ _ H) as [_ [_ [S1 S2]]]. destruct (top_spec _ _ _ U Ht) as [_ [Etab _]].
  pose proof (qi_delta _ _ _ I). pose proof (qi_inc _ _ _ I). pose proof (qi_size _ _ _ I).
  constructor; auto; try congruence.
  intros y i Hi Hy. rewrite Ei. apply A5; [exact Hi|]. assert (Eb : bucket q1 i = bucket q i) by (unfold bucket; rewrite Etab; reflexivity). rewrite Eb.
  destruct (Z.eq_dec i (uq_i0 q')) as [->|Hne']; [rewrite Bi; apply in_or_app; left; exact Hy|rewrite <- Bo by lia; exact Hy].
Qed.

Lemma QI_ext T T' q t0 : (forall x, In x (bag q) -> T x = T' x) -> QI T q t0 -> QI T' q t0.
Proof.
  intros E I. pose proof I as [U Et0 Einc Ed Es Hsl]. constructor; auto. intros x i Hi Hx.
  rewrite <- E; [auto|]. eapply (bag_bucket q x i U); [lia|exact Hx].
Qed.

(** the first element *)
Lemma push_first_X T (q : uq (N := XR)) e t : UI q -> bag q = [] -> uq_inc q = XFin inc -> uq_delta q = XFin delta -> uq_size q = size ->
  exists q' b, uq_push q e (XFin t : XR) = Ok (q', b) /\ QI (setT T e t) q' t.
Proof.
  intros U Eb Ei Ed Es. assert (Hnb : uq_nb q = 0) by (rewrite (ui_nb _ U), Eb; reflexivity).
  assert (Hex : exists q', uq_push q e (XFin t : XR) = Ok (q', 0) /\ uq_t0 q' = XFin t /\ uq_i0 q' = 0).
  { unfold uq_push, uq_empty. rewrite Hnb. cbn [Z.eqb bind uq_tab].
    destruct (vget_in_range (uq_tab q) 0) as [l Ev]; [pose proof (ui_len _ U); lia|]. rewrite Ev. cbn [bind]. eexists. split; [reflexivity|]. cbn. auto. }
  destruct Hex as [q' [Hp [E1 E2]]]. exists q', 0. split; [exact Hp|].
  destruct (push_spec _ _ _ _ _ U Hp) as [U' [P [Hbr [Es' [B1 [B2 _]]]]]].
  destruct (uq_push_same _ _ _ _ Hp) as [_ [_ [S1 S2]]]. cbn [fst] in S1, S2.
  constructor; auto; try congruence.
  intros x i Hi Hx. rewrite E2.
  assert (Hbe : forall k y, 0 <= k < size -> ~ In y (bucket q k)).
  { intros k y Hk K. assert (K' : In y (bag q)) by (eapply (bag_bucket q y k U); [lia|exact K]). rewrite Eb in K'. destruct K'. }
  destruct (Z.eq_dec i 0) as [->|Hne].
  - rewrite B1 in Hx. destruct Hx as [<-|Hx]; [|exfalso; eapply Hbe; [|exact Hx]; lia].
    unfold setT. destruct (Z.eq_dec e e); [|congruence]. exists t. split; [reflexivity|]. rewrite Z.sub_diag, Z.mod_0_l by lia. unfold in_slot. pose proof delta_pos. lra.
  - rewrite B2 in Hx by lia. exfalso. eapply Hbe; [exact Hi|exact Hx].
Qed.
End QX.

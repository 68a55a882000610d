(** Untidy.v - the untidy queue stores what was pushed (proofs for C28), any arithmetic. *)
From Coq Require Import Lia Permutation.
From Verif Require Import Base BaseFacts Num Grid Eikonal FMMModel UntidyModel UntidySpec.
Open Scope Z_scope.

Lemma concat_lset {A} (l : list (list A)) n b b' : nth_error l n = Some b ->
  Permutation (b ++ concat (lset l n b')) (b' ++ concat l).
Proof.
  revert n; induction l as [|c l IH]; intros [|n] H; cbn in H; try discriminate.
  - injection H as ->. cbn. rewrite !app_assoc. apply Permutation_app_tail, Permutation_app_comm.
  - cbn. specialize (IH n H). rewrite !app_assoc.
    transitivity ((c ++ b) ++ concat (lset l n b')); [apply Permutation_app_tail, Permutation_app_comm|].
    rewrite <- app_assoc. transitivity (c ++ (b' ++ concat l)); [apply Permutation_app_head, IH|].
    rewrite app_assoc. apply Permutation_app_tail, Permutation_app_comm.
Qed.

Lemma filter_notin e (b : list Z) : ~ In e b -> filter (fun x => negb (x =? e)) b = b.
Proof.
  induction b as [|x b IH]; intros H; [reflexivity|]. cbn. destruct (Z.eqb_spec x e) as [->|Hne].
  - exfalso. apply H. left; reflexivity.
  - cbn. rewrite IH; [reflexivity|]. intros K. apply H. right; exact K.
Qed.

(** removing the only occurrence *)
Lemma filter_once e (b : list Z) : In e b -> NoDup b -> Permutation b (e :: filter (fun x => negb (x =? e)) b).
Proof.
  induction b as [|x b IH]; intros H Hn; [destruct H|]. inversion Hn as [|? ? Hx Hn']; subst. cbn.
  destruct (Z.eqb_spec x e) as [->|Hne]; cbn.
  - rewrite filter_notin by exact Hx. reflexivity.
  - destruct H as [->|H]; [congruence|]. rewrite (IH H Hn') at 1. apply perm_swap.
Qed.

Lemma NoDup_app_l {A} (a b : list A) : NoDup (a ++ b) -> NoDup a.
Proof.
  induction a as [|x a IH]; intros H; [constructor|]. cbn in H. inversion H as [|? ? Hx H']; subst.
  constructor; [intros K; apply Hx, in_or_app; left; exact K|auto].
Qed.
Lemma NoDup_app_r {A} (a b : list A) : NoDup (a ++ b) -> NoDup b.
Proof. induction a as [|x a IH]; intros H; [exact H|]. inversion H; subst. auto. Qed.

Section Q.
Context {N : Num}.

Record UI (q : uq (N := N)) : Prop := {
  ui_size : 0 < uq_size q;
  ui_len : Z.of_nat (length (uq_tab q)) = uq_size q;
  ui_i0 : 0 <= uq_i0 q < uq_size q;
  ui_nb : uq_nb q = Z.of_nat (length (bag q))
}.

Lemma UI_new size inc : 0 < size -> UI (uq_new size inc) /\ bag (uq_new size inc) = [].
Proof.
  intros H. assert (E : bag (uq_new size inc) = []).
  { unfold bag, uq_new. cbn [uq_tab]. induction (Z.to_nat size) as [|n IH]; [reflexivity|exact IH]. }
  split; [|exact E]. constructor; cbn [uq_new uq_size uq_tab uq_i0 uq_nb]; try lia.
  - rewrite repeat_length. lia.
  - rewrite E. reflexivity.
Qed.

Lemma UI_clear q : UI q -> UI (uq_clear q) /\ bag (uq_clear q) = [].
Proof.
  intros [A B C D]. assert (E : bag (uq_clear q) = []).
  { unfold bag, uq_clear. cbn [uq_tab]. clear. induction (uq_tab q) as [|b l IH]; [reflexivity|exact IH]. }
  split; [|exact E]. constructor; cbn [uq_clear uq_size uq_tab uq_i0 uq_nb]; try lia.
  - rewrite map_length. exact B.
  - rewrite E. reflexivity.
Qed.

Lemma bucket_range q t i : UI q -> uq_bucket q t = Ok i -> 0 <= i < uq_size q.
Proof.
  intros [A _ _ _] H. unfold uq_bucket in H. apply bind_ok in H. destruct H as [z [_ H]].
  destruct (uq_size q =? 0); [discriminate|]. injection H as <-. apply Z.mod_pos_bound. exact A.
Qed.

Lemma bucket_nth q i b : UI q -> 0 <= i -> nth_error (uq_tab q) (Z.to_nat i) = Some b -> bucket q i = b.
Proof. intros _ _ H. unfold bucket. apply nth_error_nth with (d := []) in H. exact H. Qed.

Lemma nth_lset {A} (l : list A) n m x d : (n < length l)%nat -> nth m (lset l n x) d = if (n =? m)%nat then x else nth m l d.
Proof.
  revert n m; induction l as [|a l IH]; intros n m H; cbn in H; [lia|]. destruct n, m; cbn; auto. rewrite IH by lia. reflexivity.
Qed.


(** push *)
Lemma push_spec q e t q' i : UI q -> uq_push q e t = Ok (q', i) ->
  UI q' /\ Permutation (bag q') (e :: bag q) /\ 0 <= i < uq_size q' /\ uq_size q' = uq_size q /\
  bucket q' i = e :: bucket q i /\ (forall j, 0 <= j -> j <> i -> bucket q' j = bucket q j) /\ uq_nb q' = uq_nb q + 1 /\
  (uq_nb q <> 0 -> uq_i0 q' = uq_i0 q /\ uq_t0 q' = uq_t0 q).
Proof.
  intros U H. pose proof U as [A B C D]. unfold uq_push in H. apply bind_ok in H. destruct H as [[q1 k] [H1 H]].
  assert (Hq1 : uq_tab q1 = uq_tab q /\ uq_size q1 = uq_size q /\ uq_nb q1 = uq_nb q /\ 0 <= uq_i0 q1 < uq_size q /\ 0 <= k < uq_size q /\
     (uq_nb q <> 0 -> uq_i0 q1 = uq_i0 q /\ uq_t0 q1 = uq_t0 q)).
  { unfold uq_empty in H1. destruct (Z.eqb_spec (uq_nb q) 0) as [E|E].
    - injection H1 as <- <-. cbn [uq_tab uq_size uq_nb uq_i0]. repeat split; auto; try lia; contradiction.
    - apply bind_ok in H1. destruct H1 as [z [Hz H1]]. injection H1 as <- <-. pose proof (bucket_range q t z U Hz). repeat split; auto; try lia. }
  destruct Hq1 as [E1 [E2 [E3 [E4 [E5 E6]]]]]. rewrite E1, E2, E3 in H. apply bind_ok in H. destruct H as [b [Hb H]].
  apply vget_ok in Hb. destruct Hb as [Hb0 Hb]. injection H as <- <-.
  assert (P : Permutation (concat (lset (uq_tab q) (Z.to_nat k) (e :: b))) (e :: concat (uq_tab q))).
  { apply (Permutation_app_inv_l b). rewrite (concat_lset _ _ _ _ Hb). cbn. apply Permutation_cons_app. reflexivity. }
  assert (Hlen : (Z.to_nat k < length (uq_tab q))%nat) by (apply nth_error_Some; congruence).
  split; [|split; [exact P|split; [cbn; lia|split; [reflexivity|split; [|split; [|split; [reflexivity|exact E6]]]]]]].
  - constructor; cbn [uq_size uq_tab uq_i0 uq_nb]; auto.
    + rewrite length_lset. exact B.
    + unfold bag in *. cbn [uq_tab]. rewrite (Permutation_length P), D. cbn [length]. lia.
  - unfold bucket. cbn [uq_tab]. rewrite nth_lset, Nat.eqb_refl by exact Hlen. f_equal. symmetry. apply nth_error_nth, Hb.
  - intros j Hj Hne. unfold bucket. cbn [uq_tab]. rewrite nth_lset by exact Hlen. destruct (Nat.eqb_spec (Z.to_nat k) (Z.to_nat j)); [lia|reflexivity].
Qed.

(** the shift leaves the table alone and stops at a non-empty bucket *)
Lemma shift_spec fuel : forall q q', UI q -> uq_shift fuel q = Ok q' ->
  uq_tab q' = uq_tab q /\ uq_size q' = uq_size q /\ uq_nb q' = uq_nb q /\ UI q' /\ bucket q' (uq_i0 q') <> [].
Proof.
  induction fuel as [|fuel IH]; intros q q' U H; cbn [uq_shift] in H; apply bind_ok in H; destruct H as [b [Hb H]];
    apply vget_ok in Hb; destruct Hb as [Hb0 Hb].
  - destruct b as [|x b]; [discriminate|]. injection H as <-. rewrite (bucket_nth _ _ _ U Hb0 Hb). repeat split; auto; try apply U. discriminate.
  - destruct b as [|x b].
    + pose proof U as [A B C D]. destruct (Z.eqb_spec (uq_size q) 0) as [E|E]; [discriminate|]. apply IH in H; [exact H|].
      constructor; cbn [uq_size uq_tab uq_i0 uq_nb]; auto. apply Z.mod_pos_bound. exact A.
    + injection H as <-. rewrite (bucket_nth _ _ _ U Hb0 Hb). repeat split; auto; try apply U. discriminate.
Qed.

Lemma bag_nil_buckets q : UI q -> (forall i, 0 <= i < uq_size q -> bucket q i = []) -> bag q = [].
Proof.
  intros [A B C D] H. unfold bag. destruct (concat (uq_tab q)) as [|x l] eqn:E; [reflexivity|]. exfalso.
  assert (Hx : In x (concat (uq_tab q))) by (rewrite E; left; reflexivity). apply in_concat in Hx. destruct Hx as [b [Hb Hx]].
  apply In_nth with (d := []) in Hb. destruct Hb as [n [Hn Hb]]. specialize (H (Z.of_nat n) ltac:(lia)). unfold bucket in H.
  rewrite Nat2Z.id in H. rewrite H in Hb. subst b. destruct Hx.
Qed.

(** the shift always finds a non-empty bucket when there is one *)
Lemma shift_total q : UI q -> bag q <> [] -> exists q', uq_shift (uq_fuel q) q = Ok q'.
Proof.
  intros U Hne.
  assert (Hgo : forall n q1, UI q1 -> uq_tab q1 = uq_tab q -> uq_size q1 = uq_size q ->
    (exists k, (k <= n)%nat /\ bucket q ((uq_i0 q1 + Z.of_nat k) mod uq_size q) <> []) -> exists q', uq_shift n q1 = Ok q').
  { induction n as [|n IH]; intros q1 U1 Et Es [k [Hk Hb]]; cbn [uq_shift]; pose proof U1 as [A B C D].
    - assert (k = O) by lia. subst k. rewrite Z.add_0_r, Z.mod_small in Hb by (rewrite <- Es; lia).
      unfold bucket in Hb. rewrite <- Et in Hb. destruct (vget_in_range (uq_tab q1) (uq_i0 q1) ltac:(lia)) as [b Ev]. rewrite Ev. cbn [bind].
      apply vget_ok in Ev. destruct Ev as [_ Ev]. rewrite (nth_error_nth _ _ _ Ev) in Hb. destruct b; [congruence|eauto].
    - destruct (vget_in_range (uq_tab q1) (uq_i0 q1) ltac:(lia)) as [b Ev]. rewrite Ev. cbn [bind]. destruct b as [|x b]; [|eauto].
      destruct (Z.eqb_spec (uq_size q1) 0) as [E|E]; [lia|]. apply IH; cbn [uq_tab uq_size uq_i0]; auto.
      { constructor; cbn [uq_size uq_tab uq_i0 uq_nb]; auto. apply Z.mod_pos_bound. exact A. }
      destruct k as [|k].
      + exfalso. rewrite Z.add_0_r, Z.mod_small in Hb by (rewrite <- Es; lia). unfold bucket in Hb. rewrite <- Et in Hb.
        apply vget_ok in Ev. destruct Ev as [_ Ev]. rewrite (nth_error_nth _ _ _ Ev) in Hb. congruence.
      + exists k. split; [lia|]. rewrite Es, Zplus_mod_idemp_l. replace (uq_i0 q1 + 1 + Z.of_nat k) with (uq_i0 q1 + Z.of_nat (S k)) by lia. exact Hb. }
  apply Hgo; auto. pose proof U as [A B C D].
  assert (Hex : exists i, 0 <= i < uq_size q /\ bucket q i <> []).
  { destruct (existsb (fun n => match nth n (uq_tab q) [] with [] => false | _ => true end) (seq 0 (length (uq_tab q)))) eqn:Ex.
    - apply existsb_exists in Ex. destruct Ex as [n [Hn He]]. apply in_seq in Hn. exists (Z.of_nat n). split; [lia|]. unfold bucket. rewrite Nat2Z.id.
      destruct (nth n (uq_tab q) []); [discriminate|discriminate].
    - exfalso. apply Hne, bag_nil_buckets; [exact U|]. intros i Hi. unfold bucket. destruct (nth (Z.to_nat i) (uq_tab q) []) as [|x l] eqn:E; [reflexivity|].
      assert (existsb (fun n => match nth n (uq_tab q) [] with [] => false | _ => true end) (seq 0 (length (uq_tab q))) = true); [|congruence].
      apply existsb_exists. exists (Z.to_nat i). split; [apply in_seq; lia|]. rewrite E. reflexivity. }
  destruct Hex as [i [Hi Hb]]. exists (Z.to_nat ((i - uq_i0 q) mod uq_size q)).
  pose proof (Z.mod_pos_bound (i - uq_i0 q) (uq_size q) A). split; [unfold uq_fuel; lia|].
  rewrite Z2Nat.id by lia. rewrite Zplus_mod_idemp_r. replace (uq_i0 q + (i - uq_i0 q)) with i by lia. rewrite Z.mod_small by lia. exact Hb.
Qed.

Lemma rev_last {A} (l r : list A) x : rev l = x :: r -> l = rev r ++ [x].
Proof. intros H. rewrite <- (rev_involutive l), H. reflexivity. Qed.

Lemma top_spec q q' x : UI q -> uq_top q = Ok (q', x) ->
  UI q' /\ uq_tab q' = uq_tab q /\ uq_size q' = uq_size q /\ uq_nb q' = uq_nb q /\ exists r, bucket q' (uq_i0 q') = r ++ [x].
Proof.
  intros U H. unfold uq_top in H. apply bind_ok in H. destruct H as [q1 [H1 H]]. destruct (shift_spec _ _ _ U H1) as [A [B [C [D E]]]].
  apply bind_ok in H. destruct H as [b [Hb H]]. apply vget_ok in Hb. destruct Hb as [Hb0 Hb].
  destruct (rev b) as [|y r] eqn:Er; [discriminate|]. injection H as <- <-. do 4 (split; [assumption|]).
  exists (rev r). rewrite (bucket_nth _ _ _ D Hb0 Hb). apply rev_last, Er.
Qed.

Lemma top_total q : UI q -> bag q <> [] -> exists q' x, uq_top q = Ok (q', x).
Proof.
  intros U Hne. destruct (shift_total q U Hne) as [q1 H1]. unfold uq_top. rewrite H1. cbn [bind].
  destruct (shift_spec _ _ _ U H1) as [A [B [C [D E]]]]. pose proof D as [D1 D2 D3 D4].
  destruct (vget_in_range (uq_tab q1) (uq_i0 q1) ltac:(lia)) as [b Ev]. rewrite Ev. cbn [bind].
  apply vget_ok in Ev. destruct Ev as [Ev0 Ev]. rewrite (bucket_nth _ _ _ D Ev0 Ev) in E.
  destruct (rev b) as [|x r] eqn:Er; [|eauto]. apply (f_equal (@rev Z)) in Er. rewrite rev_involutive in Er. cbn in Er. congruence.
Qed.

(** pop removes what top returned *)
Lemma pop_spec q q1 x q' : UI q -> uq_nb q <> 0 -> uq_top q = Ok (q1, x) -> uq_pop q = Ok q' ->
  UI q' /\ Permutation (bag q) (x :: bag q') /\ uq_size q' = uq_size q /\ uq_nb q' = uq_nb q - 1 /\
  uq_i0 q' = uq_i0 q1 /\ uq_t0 q' = uq_t0 q1 /\ bucket q (uq_i0 q') = bucket q' (uq_i0 q') ++ [x] /\
  (forall j, 0 <= j -> j <> uq_i0 q' -> bucket q' j = bucket q j).
Proof.
  intros U Hnb Ht Hp. unfold uq_pop, uq_empty in Hp. destruct (Z.eqb_spec (uq_nb q) 0) as [E|_]; [contradiction|].
  apply bind_ok in Hp. destruct Hp as [q2 [H2 Hp]]. unfold uq_top in Ht. rewrite H2 in Ht. cbn [bind] in Ht.
  destruct (shift_spec _ _ _ U H2) as [A [B [C [D E]]]]. pose proof D as [D1 D2 D3 D4].
  apply bind_ok in Hp. destruct Hp as [b [Hb Hp]]. rewrite Hb in Ht. cbn [bind] in Ht. apply vget_ok in Hb. destruct Hb as [Hb0 Hb].
  destruct (rev b) as [|y r] eqn:Er; [discriminate|]. injection Ht as <- <-. apply rev_last in Er. injection Hp as <-.
  set (b' := removelast b). assert (Eb : b = b' ++ [y]) by (unfold b'; rewrite Er, removelast_last; reflexivity).
  assert (P : Permutation (y :: concat (lset (uq_tab q2) (Z.to_nat (uq_i0 q2)) b')) (concat (uq_tab q2))).
  { apply (Permutation_app_inv_l b'). rewrite <- (concat_lset _ _ _ b' Hb), Eb, <- app_assoc. reflexivity. }
  assert (Hlen : (Z.to_nat (uq_i0 q2) < length (uq_tab q2))%nat) by (apply nth_error_Some; congruence).
  assert (EB : bucket q (uq_i0 q2) = b) by (unfold bucket; rewrite <- A; apply nth_error_nth, Hb).
  split; [|split; [|split; [cbn; congruence|split; [cbn; congruence|split; [reflexivity|split; [reflexivity|split]]]]]].
  - constructor; cbn [uq_size uq_tab uq_i0 uq_nb]; auto.
    + rewrite length_lset. exact D2.
    + unfold bag. cbn [uq_tab]. rewrite C, (ui_nb _ U). unfold bag. rewrite <- A, <- (Permutation_length P). cbn [length]. lia.
  - unfold bag. cbn [uq_tab]. rewrite <- A. symmetry. exact P.
  - cbn [uq_i0]. rewrite EB. unfold bucket. cbn [uq_tab]. rewrite nth_lset, Nat.eqb_refl by exact Hlen. exact Eb.
  - cbn [uq_i0]. intros j Hj Hne. unfold bucket. cbn [uq_tab]. rewrite nth_lset by exact Hlen. rewrite A.
    destruct (Nat.eqb_spec (Z.to_nat (uq_i0 q2)) (Z.to_nat j)); [lia|reflexivity].
Qed.

Lemma pop_total q : UI q -> exists q', uq_pop q = Ok q'.
Proof.
  intros U. unfold uq_pop, uq_empty. destruct (Z.eqb_spec (uq_nb q) 0) as [E|E]; [eauto|].
  assert (Hne : bag q <> []) by (rewrite (ui_nb _ U) in E; destruct (bag q); [cbn in E; lia|discriminate]).
  destruct (shift_total q U Hne) as [q1 H1]. rewrite H1. cbn [bind]. destruct (shift_spec _ _ _ U H1) as [A [B [C [D _]]]].
  pose proof D as [D1 D2 D3 D4]. destruct (vget_in_range (uq_tab q1) (uq_i0 q1) ltac:(lia)) as [b ->]. cbn [bind]. eauto.
Qed.

Lemma NoDup_concat_nth {A} (l : list (list A)) n b : NoDup (concat l) -> nth_error l n = Some b -> NoDup b.
Proof.
  revert n; induction l as [|c l IH]; intros [|n] H E; cbn in *; try discriminate.
  - injection E as ->. eapply NoDup_app_l; exact H.
  - eapply IH; [eapply NoDup_app_r; exact H|exact E].
Qed.

(** increase_priority moves the element, given the bucket it is in *)
Lemma incr_spec q e bk t q' i : UI q -> uq_size q < 4294967296 -> NoDup (bag q) -> 0 <= bk < uq_size q -> In e (bucket q bk) -> uq_increase q e bk t = Ok (q', i) ->
  UI q' /\ Permutation (bag q') (bag q) /\ 0 <= i < uq_size q' /\ uq_size q' = uq_size q /\ uq_nb q' = uq_nb q /\ In e (bucket q' i) /\
  uq_i0 q' = uq_i0 q /\ uq_t0 q' = uq_t0 q /\
  (forall j x, 0 <= j -> x <> e -> (In x (bucket q' j) <-> In x (bucket q j))) /\
  ((i = bk /\ q' = q) \/
   (bucket q' i = e :: bucket q i /\ bucket q' bk = filter (fun x => negb (x =? e)) (bucket q bk) /\ i <> bk /\ (forall j, 0 <= j -> j <> i -> j <> bk -> bucket q' j = bucket q j))).
Proof.
  intros U Hs Hnd Hbk Hin H. unfold uq_increase in H. apply bind_ok in H. destruct H as [k [Hk H]]. pose proof (bucket_range q t k U Hk) as Hkr.
  pose proof U as [A B C D].
  assert (Hu : u32 bk = bk) by (unfold u32; apply Z.mod_small; lia).
  rewrite Hu in H. destruct (Z.eqb_spec k bk) as [->|Hne].
  { injection H as <- <-. do 8 (split; [solve [auto | lia]|]). split; [intros; reflexivity|left; auto]. }
  apply bind_ok in H. destruct H as [b [Hb H]]. apply vget_ok in Hb. destruct Hb as [Hb0 Hb].
  apply bind_ok in H. destruct H as [b2 [Hb2 H]]. apply vget_ok in Hb2. destruct Hb2 as [Hk0 Hb2].
  set (b1 := filter (fun x => negb (x =? e)) b) in *. injection H as <- <-.
  assert (Hl1 : (Z.to_nat bk < length (uq_tab q))%nat) by (apply nth_error_Some; congruence).
  assert (Hl2 : (Z.to_nat k < length (lset (uq_tab q) (Z.to_nat bk) b1))%nat) by (apply nth_error_Some; congruence).
  assert (Eb : bucket q bk = b) by (apply bucket_nth; auto).
  assert (Eb2 : b2 = bucket q k).
  { unfold bucket. apply nth_error_nth with (d := []) in Hb2. rewrite <- Hb2, nth_lset by exact Hl1.
    destruct (Nat.eqb_spec (Z.to_nat bk) (Z.to_nat k)); [lia|reflexivity]. }
  assert (Pb : Permutation b (e :: b1)).
  { apply filter_once; [rewrite <- Eb; exact Hin|]. eapply NoDup_concat_nth; [exact Hnd|exact Hb]. }
  assert (P1 : Permutation (e :: concat (lset (uq_tab q) (Z.to_nat bk) b1)) (concat (uq_tab q))).
  { apply (Permutation_app_inv_l b1). rewrite <- (concat_lset _ _ _ b1 Hb), Pb. symmetry. apply Permutation_middle. }
  assert (P2 : Permutation (concat (lset (lset (uq_tab q) (Z.to_nat bk) b1) (Z.to_nat k) (e :: b2))) (concat (uq_tab q))).
  { rewrite <- P1. apply (Permutation_app_inv_l b2). rewrite (concat_lset _ _ _ (e :: b2) Hb2). cbn. apply Permutation_middle. }
  assert (Hbuck : forall j, 0 <= j -> bucket (mkUq (lset (lset (uq_tab q) (Z.to_nat bk) b1) (Z.to_nat k) (e :: b2)) (uq_size q) (uq_nb q) (uq_t0 q) (uq_i0 q) (uq_delta q) (uq_inc q)) j
      = if j =? k then e :: b2 else if j =? bk then b1 else bucket q j).
  { intros j Hj. unfold bucket at 1. cbn [uq_tab]. rewrite nth_lset by exact Hl2. rewrite nth_lset by exact Hl1.
    destruct (Nat.eqb_spec (Z.to_nat k) (Z.to_nat j)), (Z.eqb_spec j k); try lia; [reflexivity|].
    destruct (Nat.eqb_spec (Z.to_nat bk) (Z.to_nat j)), (Z.eqb_spec j bk); try lia; reflexivity. }
  split; [|split; [exact P2|split; [cbn; lia|split; [reflexivity|split; [reflexivity|split; [|split; [reflexivity|split; [reflexivity|split]]]]]]]].
  - constructor; cbn [uq_size uq_tab uq_i0 uq_nb]; auto.
    + rewrite !length_lset. exact B.
    + unfold bag. cbn [uq_tab]. rewrite (Permutation_length P2). exact D.
  - rewrite Hbuck, Z.eqb_refl by lia. left; reflexivity.
  - intros j x Hj Hx. rewrite Hbuck by exact Hj. destruct (Z.eqb_spec j k) as [->|H1].
    + subst b2. cbn. split; [intros [K|K]; [congruence|exact K]|auto].
    + destruct (Z.eqb_spec j bk) as [->|H2]; [|reflexivity]. rewrite Eb. unfold b1. rewrite filter_In.
      split; [tauto|]. intros K. split; [exact K|]. destruct (Z.eqb_spec x e); [contradiction|reflexivity].
  - right. split; [rewrite Hbuck, Z.eqb_refl by lia; congruence|]. split.
    { rewrite Hbuck by lia. destruct (Z.eqb_spec bk k); [lia|]. rewrite Z.eqb_refl. rewrite Eb. reflexivity. }
    split; [exact Hne|]. intros j Hj H1 H2. rewrite Hbuck by exact Hj. destruct (Z.eqb_spec j k); [lia|]. destruct (Z.eqb_spec j bk); [lia|reflexivity].
Qed.

Theorem uhist_spec q h S : uhist q h S ->
  UI q /\ uq_size q < 4294967296 /\ NoDup S /\ Permutation (bag q) S /\ (forall e, In e S -> 0 <= h e < uq_size q /\ In e (bucket q (h e))).
Proof.
  induction 1 as [size inc h Hs|q h S e t q' b H IH He Hp|q h S e t q' b H IH He Hp|q h S q' x H IH Ht|q h S q1 x q' H IH Hne Ht Hp|q h S H IH].
  - destruct (UI_new size inc ltac:(lia)) as [A B]. split; [exact A|]. split; [cbn; lia|]. split; [constructor|]. rewrite B. split; [constructor|intros e []].
  - destruct IH as [U [Hsz [Hnd [P Hb]]]]. destruct (push_spec _ _ _ _ _ U Hp) as [U' [P' [Hr [Es [B1 [B2 _]]]]]].
    split; [exact U'|]. split; [lia|]. split; [constructor; assumption|]. split; [rewrite P', P; reflexivity|].
    intros x Hx. destruct (Z.eqb_spec x e) as [->|Hne]; [split; [lia|rewrite B1; left; reflexivity]|].
    destruct Hx as [Hx|Hx]; [congruence|]. destruct (Hb x Hx) as [K1 K2]. split; [lia|].
    destruct (Z.eq_dec (h x) b) as [E|E]; [rewrite E in *; rewrite B1; right; exact K2|rewrite B2 by lia; exact K2].
  - destruct IH as [U [Hsz [Hnd [P Hb]]]]. destruct (Hb e He) as [K1 K2].
    assert (Hndb : NoDup (bag q)) by (eapply Permutation_NoDup; [symmetry; exact P|exact Hnd]).
    destruct (incr_spec _ _ _ _ _ _ U Hsz Hndb K1 K2 Hp) as [U' [P' [Hr [Es [_ [B1 [_ [_ [B2 _]]]]]]]]].
    split; [exact U'|]. split; [lia|]. split; [exact Hnd|]. split; [rewrite P'; exact P|].
    intros x Hx. destruct (Z.eqb_spec x e) as [->|Hne]; [split; [lia|exact B1]|]. destruct (Hb x Hx) as [L1 L2].
    split; [lia|]. apply B2; [lia|exact Hne|exact L2].
  - destruct IH as [U [Hsz [Hnd [P Hb]]]]. destruct (top_spec _ _ _ U Ht) as [U' [Et [Es [En _]]]].
    split; [exact U'|]. split; [lia|]. split; [exact Hnd|]. unfold bag, bucket in *. rewrite Et, Es. auto.
  - destruct IH as [U [Hsz [Hnd [P Hb]]]].
    assert (Hnb : uq_nb q <> 0).
    { rewrite (ui_nb _ U), (Permutation_length P). destruct S; [congruence|cbn; lia]. }
    destruct (pop_spec _ _ _ _ U Hnb Ht Hp) as [U' [P' [Es [_ [_ [_ [Bi Bo]]]]]]].
    assert (Hndb : NoDup (x :: bag q')) by (eapply Permutation_NoDup; [|exact Hnd]; rewrite <- P, P'; reflexivity).
    inversion Hndb as [|? ? Hx Hnd']; subst.
    assert (HxS : In x S) by (eapply Permutation_in; [exact P|]; eapply Permutation_in; [symmetry; exact P'|left; reflexivity]).
    split; [exact U'|]. split; [lia|]. split; [apply NoDup_filter, Hnd|]. split.
    + apply (Permutation_cons_inv (a := x)). rewrite <- P', P. apply filter_once; assumption.
    + intros e He. apply filter_In in He. destruct He as [He Hxe]. destruct (Z.eqb_spec e x) as [->|Hxe']; [discriminate|].
      destruct (Hb e He) as [L1 L2]. split; [lia|]. destruct (Z.eq_dec (h e) (uq_i0 q')) as [E|E].
      * rewrite E in *. rewrite Bi in L2. apply in_app_or in L2. destruct L2 as [L2|[L2|[]]]; [exact L2|congruence].
      * rewrite Bo by lia. exact L2.
  - destruct IH as [U [Hsz _]]. destruct (UI_clear q U) as [A B]. split; [exact A|]. split; [exact Hsz|]. split; [constructor|]. rewrite B. split; [constructor|intros e []].
Qed.

(** an element is in no other bucket than its handle *)
Lemma bucket_of_unique q i j e : UI q -> NoDup (bag q) -> 0 <= i < uq_size q -> 0 <= j < uq_size q ->
  In e (bucket q i) -> In e (bucket q j) -> i = j.
Proof.
  intros [A B C D] Hnd Hi Hj H1 H2.
  assert (Hgo : forall (l : list (list Z)) n m, NoDup (concat l) -> (n < length l)%nat -> (m < length l)%nat ->
     In e (nth n l []) -> In e (nth m l []) -> n = m).
  { induction l as [|c l IH]; intros n m Hl Hn Hm K1 K2; cbn in *; [lia|].
    assert (Hdis : forall k, (k < length l)%nat -> In e c -> In e (nth k l []) -> False).
    { intros k Hk Hc Hl2. assert (In e (concat l)) by (apply in_concat; exists (nth k l []); split; [apply nth_In; lia|exact Hl2]).
      clear - Hl Hc H. induction c as [|a c IHc]; [destruct Hc|]. cbn in Hl. inversion Hl as [|? ? Ha Hl']; subst.
      destruct Hc as [->|Hc]; [apply Ha, in_or_app; right; exact H|auto]. }
    destruct n, m; auto.
    - exfalso. eapply Hdis with (k := m); eauto. lia.
    - exfalso. eapply Hdis with (k := n); eauto. lia.
    - f_equal. apply IH; auto; try lia. eapply NoDup_app_r; exact Hl. }
  specialize (Hgo (uq_tab q) (Z.to_nat i) (Z.to_nat j) Hnd ltac:(lia) ltac:(lia) H1 H2). lia.
Qed.

End Q.

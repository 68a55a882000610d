(** BaseFacts.v - lemmas about Base.v *)
From Verif Require Import Base.
From Coq Require FinFun.

Lemma bind_ok {A B} (x : res A) (k : A -> res B) b :
  bind x k = Ok b <-> exists a, x = Ok a /\ k a = Ok b.
Proof.
  destruct x as [a|f]; cbn; split.
  - intros H; exists a; split; [reflexivity|exact H].
  - intros [a' [H1 H2]]; injection H1 as <-; exact H2.
  - discriminate.
  - intros [a' [H1 _]]; discriminate.
Qed.

Lemma foldM_app {A S} (f : S -> A -> res S) l1 l2 s :
  foldM f (l1 ++ l2) s = bind (foldM f l1 s) (foldM f l2).
Proof.
  revert s; induction l1 as [|x r IH]; intros s; cbn; [reflexivity|].
  destruct (f s x) as [s'|e]; cbn; [apply IH|reflexivity].
Qed.

Lemma foldM_ext {A S} (f g : S -> A -> res S) l s :
  (forall s x, f s x = g s x) -> foldM f l s = foldM g l s.
Proof.
  intros H; revert s; induction l as [|x r IH]; intros s; cbn; [reflexivity|].
  rewrite H; destruct (g s x); cbn; auto.
Qed.

(** Invariant rule for a loop: the state invariant and success. *)
Lemma foldM_inv {A S} (P : S -> Prop) (f : S -> A -> res S) l s :
  P s -> (forall s x, In x l -> P s -> exists s', f s x = Ok s' /\ P s') ->
  exists s', foldM f l s = Ok s' /\ P s'.
Proof.
  revert s; induction l as [|x r IH]; intros s Hs Hstep; cbn.
  - exists s; auto.
  - destruct (Hstep s x (or_introl eq_refl) Hs) as [s1 [H1 H2]].
    rewrite H1; cbn. apply IH; [exact H2|].
    intros s0 x0 Hx0 Hs0; apply Hstep; [right; exact Hx0|exact Hs0].
Qed.

(** The same with a partial-correctness hypothesis. *)
Lemma foldM_inv_partial {A S} (P : S -> Prop) (f : S -> A -> res S) l s s' :
  P s -> (forall s x s1, In x l -> P s -> f s x = Ok s1 -> P s1) ->
  foldM f l s = Ok s' -> P s'.
Proof.
  revert s; induction l as [|x r IH]; intros s Hs Hstep; cbn.
  - intros H; injection H as <-; exact Hs.
  - intros H; apply bind_ok in H; destruct H as [s1 [H1 H2]].
    apply (IH s1); [|intros; eapply Hstep; eauto; right; auto|exact H2].
    eapply Hstep; eauto; left; auto.
Qed.

Lemma length_lset {A} (l : list A) n x : length (lset l n x) = length l.
Proof. revert n; induction l as [|y r IH]; intros [|n]; cbn; auto. Qed.

Lemma nth_error_lset {A} (l : list A) n m x :
  nth_error (lset l n x) m =
  if Nat.eqb n m then match nth_error l m with Some _ => Some x | None => None end
  else nth_error l m.
Proof.
  revert n m; induction l as [|y r IH]; intros n m; cbn.
  - destruct n, m; cbn; try reflexivity; destruct (Nat.eqb _ _); reflexivity.
  - destruct n as [|n], m as [|m]; cbn; try reflexivity. apply IH.
Qed.

Lemma lset_id {A} (l : list A) n x : nth_error l n = Some x -> lset l n x = l.
Proof.
  revert n; induction l as [|y r IH]; intros [|n]; cbn; intros H; try discriminate; try reflexivity.
  - injection H as ->; reflexivity.
  - f_equal; apply IH; exact H.
Qed.

Lemma lset_lset {A} (l : list A) n x y : lset (lset l n x) n y = lset l n y.
Proof. revert n; induction l as [|z r IH]; intros [|n]; cbn; auto; f_equal; auto. Qed.

Lemma lset_comm {A} (l : list A) n m x y :
  n <> m -> lset (lset l n x) m y = lset (lset l m y) n x.
Proof.
  revert n m; induction l as [|z r IH]; intros [|n] [|m] H; cbn; try reflexivity; try lia.
  f_equal; apply IH; lia.
Qed.

Lemma vget_ok {A} (l : list A) i x :
  vget l i = Ok x <-> 0 <= i /\ nth_error l (Z.to_nat i) = Some x.
Proof.
  unfold vget; destruct (Z.leb_spec 0 i) as [Hi|Hi].
  - destruct (nth_error l (Z.to_nat i)); split; intros H; try discriminate.
    + injection H as <-; auto.
    + destruct H as [_ H]; injection H as <-; reflexivity.
    + destruct H as [_ H]; discriminate.
  - split; [discriminate|lia].
Qed.

Lemma vget_in_range {A} (l : list A) i :
  0 <= i < Z.of_nat (length l) -> exists x, vget l i = Ok x.
Proof.
  intros H. destruct (nth_error l (Z.to_nat i)) as [x|] eqn:E.
  - exists x; apply vget_ok; split; [lia|exact E].
  - apply nth_error_None in E; lia.
Qed.

Lemma vget_range {A} (l : list A) i x : vget l i = Ok x -> 0 <= i < Z.of_nat (length l).
Proof.
  intros H; apply vget_ok in H; destruct H as [H1 H2].
  assert (Hl : (Z.to_nat i < length l)%nat) by (apply nth_error_Some; congruence).
  lia.
Qed.

Lemma vget_fail {A} (l : list A) i f : vget l i = Fail f -> f = UB.
Proof.
  unfold vget; destruct (0 <=? i); [destruct (nth_error _ _)|]; congruence.
Qed.

Lemma u32_small z : 0 <= z < 4294967296 -> u32 z = z.
Proof. intros H; unfold u32; apply Z.mod_small; exact H. Qed.

Lemma u32_range z : 0 <= u32 z < 4294967296.
Proof. unfold u32; apply Z.mod_pos_bound; lia. Qed.

Lemma length_zseq n : length (zseq n) = n.
Proof. unfold zseq; rewrite map_length, seq_length; reflexivity. Qed.

Lemma in_zseq n i : In i (zseq n) <-> 0 <= i < Z.of_nat n.
Proof.
  unfold zseq; rewrite in_map_iff; split.
  - intros [k [<- Hk]]; apply in_seq in Hk; lia.
  - intros H; exists (Z.to_nat i); split; [lia|apply in_seq; lia].
Qed.

Lemma zseq_S n : zseq (S n) = zseq n ++ [Z.of_nat n].
Proof. unfold zseq; rewrite seq_S, map_app; reflexivity. Qed.

Lemma NoDup_zseq n : NoDup (zseq n).
Proof.
  unfold zseq; apply FinFun.Injective_map_NoDup; [intros a b H; lia|apply seq_NoDup].
Qed.

Lemma nth_error_zseq n k : (k < n)%nat -> nth_error (zseq n) k = Some (Z.of_nat k).
Proof.
  intros H; unfold zseq. rewrite nth_error_map.
  rewrite (nth_error_nth' (seq 0 n) 0%nat) by (rewrite seq_length; exact H).
  cbn; rewrite seq_nth by exact H; reflexivity.
Qed.

Lemma mapM_ok {A B} (f : A -> res B) (g : A -> B) l :
  (forall x, In x l -> f x = Ok (g x)) -> mapM f l = Ok (map g l).
Proof.
  induction l as [|x r IH]; intros H; cbn; [reflexivity|].
  rewrite (H x (or_introl eq_refl)); cbn. rewrite IH; [reflexivity|].
  intros y Hy; apply H; right; exact Hy.
Qed.

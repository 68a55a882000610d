(** HeapLaws.v - what FMM relies on from a heap (the specification of
    boost::heap::d_ary_heap / fibonacci_heap as wrapped by FMDaryHeap and
    FMFibHeap), and the reference heap meeting it. *)
From Coq Require Import Permutation.
From Verif Require Import Base BaseFacts Num NumLaws Grid FMMModel HeapRef.

(** [hwf]: representation invariant.  [hord k h]: the heap is ordered for the
    keys [k].  Keys of stored elements may only change together with a call to
    [hincrease], and only downwards.  Only cells not yet stored are pushed. *)
Record HeapLaws {N : Num} (HO : HeapOps N) := {
  hwf : heap HO -> Prop;
  hord : (Z -> N) -> heap HO -> Prop;
  (* content *)
  hl_empty : hwf (hempty HO) /\ helems HO (hempty HO) = [];
  hl_push : forall k i h, hwf h -> ~ In i (helems HO h) ->
    hwf (hpush HO k i h) /\ Permutation (helems HO (hpush HO k i h)) (i :: helems HO h);
  hl_incr : forall k i h, hwf h -> In i (helems HO h) ->
    exists h', hincrease HO k i h = Ok h' /\ hwf h' /\ Permutation (helems HO h') (helems HO h);
  hl_pop_none : forall k h, hwf h -> (hpop HO k h = None <-> helems HO h = []);
  hl_pop : forall k h m h', hwf h -> hpop HO k h = Some (m, h') ->
    hwf h' /\ Permutation (helems HO h) (m :: helems HO h');
  (* order *)
  hl_ord_empty : forall k, hord k (hempty HO);
  hl_ord_ext : forall k k' h, hwf h -> hord k h -> (forall x, In x (helems HO h) -> k x = k' x) -> hord k' h;
  hl_ord_push : forall k i h, hwf h -> ~ In i (helems HO h) -> hord k h -> hord k (hpush HO k i h);
  hl_ord_incr : forall k k' i h h', hwf h -> hord k h -> In i (helems HO h) -> NoDup (helems HO h) ->
    (forall x, In x (helems HO h) -> x <> i -> k x = k' x) -> nltb (k i) (k' i) = false ->
    (forall x, In x (helems HO h) -> nisnan (k x) = false) ->
    hincrease HO k' i h = Ok h' -> hord k' h';
  hl_ord_pop : forall k h m h', hwf h -> hord k h -> hpop HO k h = Some (m, h') ->
    (forall x, In x (helems HO h) -> nisnan (k x) = false) ->
    hord k h' /\ forall x, In x (helems HO h) -> nltb (k x) (k m) = false
}.
Arguments hwf {N HO}. Arguments hord {N HO}.

Section RefLaws.
Context {N : Num}.
Variable L : NumLaws N.

Lemma min_elem_in (k : Z -> N) x l : In (min_elem k x l) (x :: l).
Proof.
  revert x; induction l as [|y r IH]; intros x; cbn; [auto|].
  destruct (nltb (k y) (k x)).
  - destruct (IH y) as [H|H]; auto.
  - destruct (IH x) as [H|H]; auto.
Qed.

Lemma min_elem_le (k : Z -> N) x l y :
  (forall z, In z (x :: l) -> nisnan (k z) = false) -> In y (x :: l) -> nltb (k y) (k (min_elem k x l)) = false.
Proof.
  revert x y; induction l as [|z r IH]; intros x y Hn Hy; cbn [min_elem].
  - destruct Hy as [<-|[]]. apply (nl_irrefl N L).
  - destruct (nltb (k z) (k x)) eqn:E.
    + destruct Hy as [<-|Hy].
      * destruct (nltb (k x) (k (min_elem k z r))) eqn:E2; [exfalso|reflexivity].
        pose proof (nl_trans N L _ _ _ E E2) as H.
        rewrite (IH z z) in H; [discriminate| |left; reflexivity].
        intros w Hw; apply Hn; right; exact Hw.
      * apply IH; [intros w Hw; apply Hn; right; exact Hw|exact Hy].
    + destruct Hy as [<-|[<-|Hy]].
      * apply IH; [|left; reflexivity]. intros w [<-|Hw]; apply Hn; [left|right; right]; auto.
      * destruct (nltb (k z) (k (min_elem k x r))) eqn:E2; [exfalso|reflexivity].
        destruct (nl_cotrans N L (k z) (k x) _ (Hn x (or_introl eq_refl)) E2) as [H|H]; [congruence|].
        rewrite (IH x x) in H; [discriminate| |left; reflexivity].
        intros w [<-|Hw]; apply Hn; [left|right; right]; auto.
      * apply IH; [|right; exact Hy]. intros w [<-|Hw]; apply Hn; [left|right; right]; auto.
Qed.

Lemma remove_first_perm x l : In x l -> Permutation l (x :: remove_first x l).
Proof.
  induction l as [|y r IH]; intros H; [destruct H|]. cbn.
  destruct (Z.eqb_spec y x) as [->|Hne]; [reflexivity|].
  destruct H as [H|H]; [congruence|]. rewrite (IH H) at 1. apply perm_swap.
Qed.

Definition RefHeap_laws : HeapLaws (RefHeap (N := N)).
Proof.
  refine {| hwf := fun _ => True; hord := fun _ _ => True |}; cbn [RefHeap heap hempty hpush hincrease hpop helems]; auto.
  - intros k i h _ _. split; [exact I|]. symmetry. apply Permutation_cons_append.
  - intros k i h _ Hi.
    assert (E : existsb (Z.eqb i) h = true).
    { apply existsb_exists. exists i. split; [exact Hi|apply Z.eqb_refl]. }
    rewrite E. exists h. auto.
  - intros k h _. unfold ref_pop. destruct h; split; congruence.
  - intros k h m h' _. unfold ref_pop. destruct h as [|x r]; [discriminate|].
    intros H. injection H as <- <-. split; [exact I|]. apply (remove_first_perm _ (x :: r)), min_elem_in.
  - intros k h m h' _ _ H Hn. split; [exact I|]. unfold ref_pop in H.
    destruct h as [|x r]; [discriminate|]. injection H as <- _. intros y Hy. apply min_elem_le; assumption.
Defined.

End RefLaws.

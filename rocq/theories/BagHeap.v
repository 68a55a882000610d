(** BagHeap.v - heaps seen as bags: what every narrow band of the library guarantees even
    when keys of stored cells change (FMPriorityQueue included), and correctness of the
    binary heap of libstdc++ while keys stay put (C27, C67-C69). *)
From Coq Require Import Permutation.
From Verif Require Import Base BaseFacts Num NumLaws Grid FMMModel HeapRef HeapLaws.

(** [bval h i]: the handle kept for cell [i] refers to an entry of [h] (what
    [hincrease] needs); it is lost only when [i] is taken out. *)
Record BagLaws {N : Num} (HO : HeapOps N) := {
  bwf : heap HO -> Prop;
  bval : heap HO -> Z -> Prop;
  bl_val_in : forall h i, bwf h -> bval h i -> In i (helems HO h);
  bl_empty : bwf (hempty HO) /\ helems HO (hempty HO) = [];
  bl_push : forall k i h, bwf h ->
    bwf (hpush HO k i h) /\ Permutation (helems HO (hpush HO k i h)) (i :: helems HO h) /\
    bval (hpush HO k i h) i /\ forall x, bval h x -> bval (hpush HO k i h) x;
  bl_incr : forall k i h, bwf h -> bval h i ->
    exists h', hincrease HO k i h = Ok h' /\ bwf h' /\ (forall x, In x (helems HO h') <-> In x (helems HO h)) /\
      forall x, bval h x -> bval h' x;
  bl_pop_none : forall k h, bwf h -> (hpop HO k h = None <-> helems HO h = []);
  bl_pop : forall k h m h', bwf h -> hpop HO k h = Some (m, h') ->
    bwf h' /\ Permutation (helems HO h) (m :: helems HO h') /\ forall x, x <> m -> bval h x -> bval h' x
}.
Arguments bwf {N HO}. Arguments bval {N HO}.

(** the reference heap *)
Definition RefBag {N : Num} : BagLaws (RefHeap (N := N)).
Proof.
  refine (Build_BagLaws N RefHeap (fun _ => True) (fun h i => In i (h : list Z)) _ _ _ _ _ _); cbn [RefHeap heap hempty hpush hincrease hpop helems]; auto.
  - intros k i h _. split; [exact I|]. split; [symmetry; apply Permutation_cons_append|]. split; [apply in_or_app; right; left; reflexivity|].
    intros x Hx. apply in_or_app. auto.
  - intros k i h _ Hi. assert (E : existsb (Z.eqb i) h = true) by (apply existsb_exists; exists i; split; [exact Hi|apply Z.eqb_refl]).
    rewrite E. exists h. split; [reflexivity|]. split; [exact I|]. split; [reflexivity|auto].
  - intros k h _. unfold ref_pop. destruct h; split; congruence.
  - intros k h m h' _. unfold ref_pop. destruct h as [|x r]; [discriminate|]. intros H. injection H as <- <-.
    pose proof (remove_first_perm _ (x :: r) (min_elem_in k x r)) as P. split; [exact I|]. split; [exact P|].
    intros y Hy Hi. apply (Permutation_in _ P) in Hi. destruct Hi as [K|K]; [congruence|exact K].
Defined.

(** *** counting *)
Definition ind (x y : Z) : nat := if Z.eq_dec x y then 1%nat else 0%nat.
Lemma count_lset l n v x : (n < length l)%nat ->
  (count_occ Z.eq_dec (lset l n v) x + ind (at_ l n) x = count_occ Z.eq_dec l x + ind v x)%nat.
Proof.
  unfold at_. revert n; induction l as [|y l IH]; intros [|n] Hn; cbn [length] in Hn; try lia.
  - cbn [lset count_occ nth]. unfold ind. destruct (Z.eq_dec v x), (Z.eq_dec y x); lia.
  - cbn [lset count_occ nth]. specialize (IH n ltac:(lia)). destruct (Z.eq_dec y x); lia.
Qed.

Lemma at_lset l n m v : (n < length l)%nat -> at_ (lset l n v) m = if Nat.eqb n m then v else at_ l m.
Proof.
  unfold at_. revert n m; induction l as [|y l IH]; intros [|n] [|m] Hn; cbn [length] in Hn; try lia; cbn; auto. apply IH. lia.
Qed.

(** moving the content of [j] into the hole [i] and making [j] the hole *)
Lemma swap_perm l i j v : (i < length l)%nat -> (j < length l)%nat -> i <> j ->
  Permutation (lset (lset l i (at_ l j)) j v) (lset l i v).
Proof.
  intros Hi Hj Hne. apply (Permutation_count_occ Z.eq_dec). intros x.
  assert (Hj' : (j < length (lset l i (at_ l j)))%nat) by (rewrite length_lset; exact Hj).
  pose proof (count_lset (lset l i (at_ l j)) j v x Hj') as A. pose proof (count_lset l i (at_ l j) x Hi) as B. pose proof (count_lset l i v x Hi) as C.
  rewrite (at_lset l i j _ Hi) in A. destruct (Nat.eqb_spec i j); [contradiction|]. lia.
Qed.

Section Std.
Context {N : Num}.
Implicit Types k : Z -> N.

Lemma parent_lt p : (Nat.div p 2 < S p)%nat.
Proof. pose proof (Nat.div_le_upper_bound p 2 p ltac:(lia)). lia. Qed.

Lemma sift_up_perm f k : forall h hole v, (hole < length h)%nat -> Permutation (sift_up f k h hole v) (lset h hole v).
Proof.
  induction f as [|f IH]; intros h hole v Hh; cbn [sift_up]; [reflexivity|].
  destruct hole as [|p]; [reflexivity|]. cbv zeta. destruct (fmcompare k (at_ h (Nat.div p 2)) v); [|reflexivity].
  pose proof (parent_lt p). rewrite IH by (rewrite length_lset; lia). apply swap_perm; lia.
Qed.

Lemma sift_up_length f k : forall h hole v, length (sift_up f k h hole v) = length h.
Proof.
  induction f as [|f IH]; intros h hole v; cbn [sift_up]; [apply length_lset|].
  destruct hole as [|p]; [apply length_lset|]. cbv zeta. destruct (fmcompare k (at_ h (Nat.div p 2)) v); [|apply length_lset].
  rewrite IH. apply length_lset.
Qed.

Lemma lset_app_last (l : list Z) x v : lset (l ++ [x]) (length l) v = l ++ [v].
Proof. induction l as [|y l IH]; cbn; [reflexivity|]. rewrite IH. reflexivity. Qed.

Lemma std_push_perm k i h : Permutation (std_push k i h) (i :: h).
Proof.
  unfold std_push. rewrite sift_up_perm by (rewrite app_length; cbn; lia). rewrite lset_app_last. symmetry. apply Permutation_cons_append.
Qed.

Lemma adjust_down_perm f k : forall h hole len v, (hole < len)%nat -> length h = len -> Permutation (adjust_down f k h hole len v) (lset h hole v).
Proof.
  induction f as [|f IH]; intros h hole len v Hh Hl; cbn [adjust_down]; [apply sift_up_perm; lia|].
  cbv zeta. destruct (Nat.ltb_spec (2 * (hole + 1)) len).
  - destruct (fmcompare k (at_ h (2 * (hole + 1))) (at_ h (2 * (hole + 1) - 1))).
    + rewrite IH by (rewrite ?length_lset; lia). apply swap_perm; lia.
    + rewrite IH by (rewrite ?length_lset; lia). apply swap_perm; lia.
  - destruct (Nat.eqb_spec (2 * (hole + 1)) len).
    + rewrite sift_up_perm by (rewrite length_lset; lia). apply swap_perm; lia.
    + apply sift_up_perm. lia.
Qed.

Lemma last_split (l : list Z) : l <> [] -> l = firstn (length l - 1) l ++ [at_ l (length l - 1)].
Proof.
  intros H. destruct (exists_last H) as [a [x ->]]. rewrite app_length. cbn [length].
  replace (length a + 1 - 1)%nat with (length a) by lia. unfold at_. rewrite firstn_app, Nat.sub_diag, firstn_all, app_nth2, Nat.sub_diag by lia. cbn. rewrite app_nil_r. reflexivity.
Qed.

Lemma std_pop_perm k h m h' : std_pop k h = Some (m, h') -> Permutation h (m :: h').
Proof.
  unfold std_pop. destruct h as [|x r]; [discriminate|]. intros E. injection E as <- <-. cbn [length]. rewrite Nat.sub_0_r.
  destruct r as [|y r]; [reflexivity|]. cbn [length].
  set (n := length r). change (S (length r)) with (S n). set (v := at_ (x :: y :: r) (S n)). set (h' := firstn (S n) (x :: y :: r)).
  assert (Hl : length h' = S n) by (unfold h'; rewrite firstn_length; cbn; lia).
  pose proof (adjust_down_perm (S (S n)) k h' 0 (S n) v ltac:(lia) Hl) as Q.
  eapply Permutation_trans; [|eapply perm_skip; symmetry; exact Q]. clear Q.
  pose proof (last_split (x :: y :: r) ltac:(discriminate)) as E. cbn [length] in E. fold n in E. rewrite Nat.sub_succ, Nat.sub_0_r in E. fold v h' in E.
  rewrite E at 1. unfold h'. cbn [firstn lset app]. apply Permutation_cons; [reflexivity|]. symmetry. apply Permutation_cons_append.
Qed.

(** the queue of SFMM is a bag: push and increase each add one entry *)
Definition StdBag : BagLaws (StdHeap (N := N)).
Proof.
  assert (Hp : forall k i h x, In x (std_push k i h) <-> x = i \/ In x h).
  { intros k i h x. pose proof (std_push_perm k i h) as P. split; intros K.
    + apply (Permutation_in _ P) in K. destruct K as [<-|K]; auto.
    + eapply Permutation_in; [symmetry; exact P|]. destruct K as [->|K]; [left|right]; auto. }
  refine (Build_BagLaws N StdHeap (fun _ => True) (fun h i => In i (h : list Z)) _ _ _ _ _ _); cbn [StdHeap heap hempty hpush hincrease hpop helems]; auto.
  - intros k i h _. split; [exact Logic.I|]. split; [apply std_push_perm|]. split; [apply Hp; auto|]. intros x Hx. apply Hp. auto.
  - intros k i h _ Hi. exists (std_push k i h). split; [reflexivity|]. split; [exact Logic.I|]. split.
    + intros x. rewrite Hp. split; [intros [->|K]; assumption|auto].
    + intros x Hx. apply Hp. auto.
  - intros k h _. unfold std_pop. destruct h; split; congruence.
  - intros k h m h' _ H. pose proof (std_pop_perm k h m h' H) as P. split; [exact Logic.I|]. split; [exact P|].
    intros y Hy Hi. apply (Permutation_in _ P) in Hi. destruct Hi as [K|K]; [congruence|exact K].
Defined.
End Std.

(** *** the binary heap while keys stay put *)
Section StdOrder.
Context {N : Num}.
Variable L : NumLaws N.
Variable k : Z -> N.

(** [a] may stand above [b] *)
Definition above (a b : Z) : Prop := nltb (k b) (k a) = false.
Definition total_on (h : list Z) : Prop := forall x, In x h -> nisnan (k x) = false.
Definition par (i : nat) : nat := Nat.div (i - 1) 2.
(** heap property: no node is better than its parent *)
Definition heap_ok (h : list Z) : Prop := forall i, (0 < i < length h)%nat -> above (at_ h (par i)) (at_ h i).

Lemma above_refl a : above a a. Proof. apply (nl_irrefl N L). Qed.
Lemma above_trans a b c : nisnan (k b) = false -> above a b -> above b c -> above a c.
Proof.
  unfold above. intros Hb H1 H2. destruct (nltb (k c) (k a)) eqn:E; [|reflexivity].
  destruct (nl_cotrans N L _ (k b) _ Hb E); congruence.
Qed.
Lemma above_lt a b : nltb (k a) (k b) = true -> above a b.
Proof. unfold above. intros H. destruct (nltb (k b) (k a)) eqn:E; [|reflexivity]. pose proof (nl_trans N L _ _ _ H E). rewrite (nl_irrefl N L) in H0. discriminate. Qed.

Lemma par_lt i : (0 < i)%nat -> (par i < i)%nat.
Proof. intros H. unfold par. pose proof (Nat.div_le_upper_bound (i - 1) 2 (i - 1) ltac:(lia)). lia. Qed.
Lemma par_iff i p : (0 < i)%nat -> (par i = p <-> i = 2 * p + 1 \/ i = 2 * p + 2)%nat.
Proof.
  intros H. unfold par. pose proof (Nat.div_mod (i - 1) 2 ltac:(lia)) as E. pose proof (Nat.mod_upper_bound (i - 1) 2 ltac:(lia)). lia.
Qed.

(** everything but the hole [q] is in order, and the parent of the hole is above the
    children of the hole *)
Record hole_ok (h : list Z) (q : nat) : Prop := {
  ho_in : (q < length h)%nat;
  ho_pair : forall i, (0 < i < length h)%nat -> i <> q -> par i <> q -> above (at_ h (par i)) (at_ h i);
  ho_gp : forall i, (0 < i < length h)%nat -> par i = q -> (0 < q)%nat -> above (at_ h (par q)) (at_ h i)
}.
Definition fits (h : list Z) (q : nat) (v : Z) : Prop := forall i, (0 < i < length h)%nat -> par i = q -> above v (at_ h i).
Definition nonan_but (h : list Z) (q : nat) : Prop := forall i, (i < length h)%nat -> i <> q -> nisnan (k (at_ h i)) = false.

Lemma fill h q v : hole_ok h q -> fits h q v -> ((0 < q)%nat -> above (at_ h (par q)) v) -> heap_ok (lset h q v).
Proof.
  intros [A B C] F P i Hi. rewrite length_lset in Hi. rewrite !at_lset by exact A.
  destruct (Nat.eqb_spec q i) as [<-|Hne].
  - destruct (Nat.eqb_spec q (par q)) as [E|E]; [pose proof (par_lt q ltac:(lia)); lia|]. apply P. lia.
  - destruct (Nat.eqb_spec q (par i)) as [E|E]; [apply F; [exact Hi|congruence]|]. apply B; [exact Hi|congruence|congruence].
Qed.

Lemma sift_up_ok : forall f h q v, (q < f)%nat -> nisnan (k v) = false -> nonan_but h q -> hole_ok h q -> fits h q v -> heap_ok (sift_up f k h q v).
Proof.
  induction f as [|f IH]; intros h q v Hf Hv Hn H F; [lia|]. cbn [sift_up]. destruct q as [|p].
  - apply fill; [exact H|exact F|lia].
  - cbv zeta. assert (Ep : Nat.div p 2 = par (S p)) by (unfold par; f_equal; lia). rewrite Ep. set (q := S p) in *.
    pose proof (par_lt q ltac:(unfold q; lia)) as Hpl. set (r := par q) in *. pose proof H as [A B C].
    destruct (fmcompare k (at_ h r) v) eqn:Ec; unfold fmcompare in Ec.
    2:{ apply fill; [exact H|exact F|]. intros _. exact Ec. }
    assert (Hlen : length (lset h q (at_ h r)) = length h) by apply length_lset.
    apply IH; [lia|exact Hv| | |].
    + intros i Hi Hne. rewrite Hlen in Hi. rewrite at_lset by exact A. destruct (Nat.eqb_spec q i); [apply Hn; lia|apply Hn; [exact Hi|congruence]].
    + constructor.
      * rewrite Hlen. lia.
      * intros i Hi Hne Hpe. rewrite Hlen in Hi. rewrite !at_lset by exact A.
        destruct (Nat.eqb_spec q i) as [<-|Hqi]; [destruct (Hpe eq_refl)|].
        destruct (Nat.eqb_spec q (par i)) as [E|E]; [apply C; [exact Hi|congruence|lia]|apply B; [exact Hi|congruence|congruence]].
      * intros i Hi Hpi Hr. rewrite Hlen in Hi. rewrite !at_lset by exact A.
        destruct (Nat.eqb_spec q (par r)) as [E|E]; [pose proof (par_lt r Hr); lia|].
        assert (K : above (at_ h (par r)) (at_ h r)) by (apply B; [lia|lia|congruence]).
        destruct (Nat.eqb_spec q i) as [Hqi|Hqi]; [exact K|]. eapply above_trans; [|exact K|]; [apply Hn; lia|].
        rewrite <- Hpi. apply B; [exact Hi|congruence|rewrite Hpi; lia].
    + intros i Hi Hpi. rewrite Hlen in Hi. rewrite at_lset by exact A. pose proof (above_lt _ _ Ec) as K.
      destruct (Nat.eqb_spec q i) as [Hqi|Hqi]; [exact K|]. eapply above_trans; [|exact K|]; [apply Hn; lia|].
      rewrite <- Hpi. apply B; [exact Hi|congruence|rewrite Hpi; lia].
Qed.

Lemma at_app_l (l : list Z) x i : (i < length l)%nat -> at_ (l ++ [x]) i = at_ l i.
Proof. intros H. unfold at_. apply app_nth1. exact H. Qed.
Lemma at_In (l : list Z) i : (i < length l)%nat -> In (at_ l i) l.
Proof. intros H. apply nth_In. exact H. Qed.

Lemma std_push_ok i h : total_on (i :: h) -> heap_ok h -> heap_ok (std_push k i h).
Proof.
  intros T H. unfold std_push. apply sift_up_ok.
  - lia.
  - apply T. left; reflexivity.
  - intros j Hj Hne. rewrite app_length in Hj. cbn in Hj. rewrite at_app_l by lia. apply T. right. apply at_In. lia.
  - constructor.
    + rewrite app_length. cbn. lia.
    + intros j Hj Hne Hpe. rewrite app_length in Hj. cbn in Hj. pose proof (par_lt j ltac:(lia)). rewrite !at_app_l by lia. apply H. lia.
    + intros j Hj Hpe _. rewrite app_length in Hj. cbn in Hj. pose proof (par_lt j ltac:(lia)). lia.
  - intros j Hj Hpe. rewrite app_length in Hj. cbn in Hj. pose proof (par_lt j ltac:(lia)). lia.
Qed.

Lemma adjust_down_ok : forall f h q len v, length h = len -> (len <= q + f)%nat -> nisnan (k v) = false -> nonan_but h q -> hole_ok h q ->
  heap_ok (adjust_down f k h q len v).
Proof.
  induction f as [|f IH]; intros h q len v Hl Hf Hv Hn H; [pose proof (ho_in _ _ H); lia|]. cbn [adjust_down]. cbv zeta.
  pose proof H as [A B C].
  assert (Hdown : forall c, (0 < c < length h)%nat -> par c = q -> (forall s, (0 < s < length h)%nat -> par s = q -> above (at_ h c) (at_ h s)) ->
     hole_ok (lset h q (at_ h c)) c /\ nonan_but (lset h q (at_ h c)) c).
  { intros c Hc Hpc Hmin. pose proof (par_lt c ltac:(lia)) as Hlt. split.
    - constructor.
      + rewrite length_lset. lia.
      + intros i Hi Hne Hpe. rewrite length_lset in Hi. rewrite !at_lset by exact A.
        destruct (Nat.eqb_spec q i) as [Hqi|Hqi].
        * subst i. destruct (Nat.eqb_spec q (par q)) as [E|E]; [pose proof (par_lt q ltac:(lia)); lia|]. apply C; [lia|exact Hpc|lia].
        * destruct (Nat.eqb_spec q (par i)) as [E|E]; [apply Hmin; [lia|congruence]|]. apply B; [lia|congruence|congruence].
      + intros i Hi Hpi Hc0. rewrite length_lset in Hi. rewrite !at_lset by exact A. pose proof (par_lt i ltac:(lia)).
        destruct (Nat.eqb_spec q i) as [Hqi|Hqi]; [lia|]. rewrite Hpc, Nat.eqb_refl. rewrite <- Hpi. apply B; [lia|congruence|lia].
    - intros i Hi Hne. rewrite length_lset in Hi. rewrite at_lset by exact A. destruct (Nat.eqb_spec q i); apply Hn; try lia. }
  destruct (Nat.ltb_spec (2 * (q + 1)) len).
  - assert (P1 : par (2 * (q + 1)) = q) by (apply par_iff; lia). assert (P2 : par (2 * (q + 1) - 1) = q) by (apply par_iff; lia).
    assert (Hch : forall s, (0 < s < length h)%nat -> par s = q -> s = (2 * (q + 1))%nat \/ s = (2 * (q + 1) - 1)%nat).
    { intros s Hs Hp. apply (par_iff s q) in Hp; lia. }
    destruct (fmcompare k (at_ h (2 * (q + 1))) (at_ h (2 * (q + 1) - 1))) eqn:Ec; unfold fmcompare in Ec.
    + destruct (Hdown (2 * (q + 1) - 1)%nat) as [D1 D2]; [lia|exact P2| |apply IH; [rewrite length_lset; exact Hl|lia|exact Hv|exact D2|exact D1]].
      intros s Hs Hp. destruct (Hch s Hs Hp) as [->| ->]; [apply above_lt; exact Ec|apply above_refl].
    + destruct (Hdown (2 * (q + 1))%nat) as [D1 D2]; [lia|exact P1| |apply IH; [rewrite length_lset; exact Hl|lia|exact Hv|exact D2|exact D1]].
      intros s Hs Hp. destruct (Hch s Hs Hp) as [->| ->]; [apply above_refl|exact Ec].
  - destruct (Nat.eqb_spec (2 * (q + 1)) len).
    + assert (P2 : par (2 * (q + 1) - 1) = q) by (apply par_iff; lia).
      destruct (Hdown (2 * (q + 1) - 1)%nat) as [D1 D2]; [lia|exact P2| |].
      * intros s Hs Hp. apply (par_iff s q) in Hp; [|lia]. replace s with (2 * (q + 1) - 1)%nat by lia. apply above_refl.
      * apply sift_up_ok; [lia|exact Hv|exact D2|exact D1|]. intros i Hi Hp. rewrite length_lset in Hi. apply (par_iff i _) in Hp; lia.
    + apply sift_up_ok; [lia|exact Hv|exact Hn|exact H|]. intros i Hi Hp. apply (par_iff i _) in Hp; lia.
Qed.

Lemma root_above h : total_on h -> heap_ok h -> forall i, (i < length h)%nat -> above (at_ h 0) (at_ h i).
Proof.
  intros T H i. induction i as [i IH] using lt_wf_ind. intros Hi. destruct i as [|i]; [apply above_refl|].
  pose proof (par_lt (S i) ltac:(lia)). eapply above_trans; [|apply (IH (par (S i))); lia|apply H; lia]. apply T, at_In. lia.
Qed.

Lemma std_pop_ok h m h' : total_on h -> heap_ok h -> std_pop k h = Some (m, h') ->
  heap_ok h' /\ forall x, In x h -> above m x.
Proof.
  intros T H E. split.
  - unfold std_pop in E. destruct h as [|x r]; [discriminate|]. injection E as <- <-. cbn [length]. rewrite Nat.sub_0_r.
    destruct r as [|y r]; [intros i Hi; cbn in Hi; lia|]. cbn [length].
    set (n := length r). set (h := x :: y :: r) in *. set (v := at_ h (S n)). set (h' := firstn (S n) h).
    assert (Hlh : length h = S (S n)) by reflexivity.
    assert (Hl : length h' = S n) by (unfold h'; rewrite firstn_length; lia).
    assert (Hat : forall i, (i < S n)%nat -> at_ h' i = at_ h i).
    { intros i Hi. pose proof (last_split h ltac:(discriminate)) as Eh. rewrite Hlh in Eh. replace (S (S n) - 1)%nat with (S n) in Eh by lia.
      rewrite Eh. fold h'. fold v. rewrite at_app_l by lia. reflexivity. }
    assert (G : heap_ok (adjust_down (S (S n)) k h' 0 (S n) v)); [|exact G].
    apply adjust_down_ok; [exact Hl|lia| | |].
    + apply T. apply at_In. lia.
    + intros i Hi _. rewrite Hl in Hi. rewrite Hat by lia. apply T, at_In. lia.
    + constructor; [lia| |lia]. intros i Hi _ _. rewrite Hl in Hi. pose proof (par_lt i ltac:(lia)). rewrite !Hat by lia. apply H. lia.
  - intros z Hz. apply (In_nth _ _ 0) in Hz. destruct Hz as [i [Hi Ei]]. unfold std_pop in E. destruct h as [|x r]; [discriminate|]. injection E as <- _.
    pose proof (root_above (x :: r) T H i Hi) as K. unfold at_ in K at 2. rewrite Ei in K. exact K.
Qed.
End StdOrder.

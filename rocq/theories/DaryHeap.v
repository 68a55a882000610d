(** DaryHeap.v - the d-ary heap of FMDaryHeap meets the heap laws FMM relies on. *)
From Coq Require Import Permutation.
From Verif Require Import Base BaseFacts Num NumLaws Grid FMMModel HeapRef HeapLaws BagHeap DaryModel.

Lemma map_lset {A B} (f : A -> B) l n x : map f (lset l n x) = lset (map f l) n (f x).
Proof. revert n; induction l as [|y l IH]; intros [|n]; cbn; congruence. Qed.
Lemma lset_perm1 {A} (l : list A) j x y : nth_error l j = Some y -> Permutation (y :: lset l j x) (x :: l).
Proof.
  revert j; induction l as [|z l IH]; intros [|j] H; cbn in *; try discriminate.
  - injection H as ->. apply perm_swap.
  - rewrite perm_swap, (IH j H). apply perm_swap.
Qed.
Lemma lset_swap_perm {A} (l : list A) : forall i j x y, nth_error l i = Some x -> nth_error l j = Some y -> Permutation (lset (lset l i y) j x) l.
Proof.
  induction l as [|z l IH]; intros [|i] [|j] x y Hx Hy; cbn in *; try discriminate.
  - injection Hx as ->. injection Hy as ->. reflexivity.
  - injection Hx as ->. apply lset_perm1. exact Hy.
  - injection Hy as ->. apply lset_perm1. exact Hx.
  - apply perm_skip. apply IH; assumption.
Qed.

Section D.
Context {N : Num}.
Implicit Types (k : Z -> N) (q : list entry).
Notation fs := (map fst).

Lemma ent_nth q i : (i < length q)%nat -> nth_error q i = Some (ent q i).
Proof. intros H. apply nth_error_nth'. exact H. Qed.
Lemma at_fs q i : at_ (fs q) i = fst (ent q i).
Proof. unfold at_, ent. change 0 with (fst ((0, 0) : entry)). apply map_nth. Qed.
Lemma swap_perm' q i j : (i < length q)%nat -> (j < length q)%nat -> Permutation (swap q i j) q.
Proof. intros Hi Hj. unfold swap. apply lset_swap_perm; apply ent_nth; assumption. Qed.
Lemma swap_length q i j : length (swap q i j) = length q.
Proof. unfold swap. rewrite !length_lset. reflexivity. Qed.
Lemma fs_swap q i j : fs (swap q i j) = lset (lset (fs q) i (at_ (fs q) j)) j (at_ (fs q) i).
Proof. unfold swap. rewrite !map_lset, !at_fs. reflexivity. Qed.

Lemma dsiftup_perm f k : forall q i, (i < length q)%nat -> Permutation (dsiftup f k q i) q.
Proof.
  induction f as [|f IH]; intros q i Hi; cbn [dsiftup]; [reflexivity|]. destruct i as [|p]; [reflexivity|]. cbv zeta.
  pose proof (parent_lt p). destruct (dless k _ _); [|reflexivity]. rewrite IH by (rewrite swap_length; lia). apply swap_perm'; lia.
Qed.
Lemma top_child_range k q i : (2 * i + 1 < length q)%nat -> (top_child k q i < length q)%nat /\ par (top_child k q i) = i /\ (i < top_child k q i)%nat.
Proof.
  intros H. unfold top_child. destruct (Nat.ltb_spec (2 * i + 2) (length q)); [destruct (dless k _ _)|]; (split; [lia|]); (split; [|lia]); apply par_iff; lia.
Qed.
Lemma dsiftdown_perm f k : forall q i, (i < length q)%nat -> Permutation (dsiftdown f k q i) q.
Proof.
  induction f as [|f IH]; intros q i Hi; cbn [dsiftdown]; [reflexivity|].
  destruct (Nat.ltb_spec (2 * i + 1) (length q)); [|reflexivity]. cbv zeta. destruct (top_child_range k q i H) as [H1 _].
  destruct (negb _); [|reflexivity]. rewrite IH by (rewrite swap_length; lia). apply swap_perm'; lia.
Qed.

Lemma lset_same (l : list Z) i : (i < length l)%nat -> lset l i (at_ l i) = l.
Proof. intros H. apply lset_id. unfold at_. apply nth_error_nth'. exact H. Qed.

Lemma sift_up_hole f k h i v w : (i < length h)%nat -> sift_up f k (lset h i w) i v = sift_up f k h i v.
Proof.
  intros Hi. destruct f as [|f]; cbn [sift_up]; [apply lset_lset|]. destruct i as [|p]; [apply lset_lset|]. cbv zeta.
  pose proof (parent_lt p). rewrite at_lset by exact Hi. destruct (Nat.eqb_spec (S p) (Nat.div p 2)); [lia|]. rewrite !lset_lset. reflexivity.
Qed.

Lemma dsiftup_fs f k : forall q i, (i < length q)%nat -> fs (dsiftup f k q i) = sift_up f k (fs q) i (at_ (fs q) i).
Proof.
  induction f as [|f IH]; intros q i Hi; cbn [dsiftup sift_up]; [rewrite lset_same by (rewrite map_length; exact Hi); reflexivity|].
  destruct i as [|p]; [rewrite lset_same by (rewrite map_length; exact Hi); reflexivity|]. cbv zeta. pose proof (parent_lt p).
  set (r := Nat.div p 2) in *. unfold dless. rewrite <- !at_fs.
  destruct (fmcompare k (at_ (fs q) r) (at_ (fs q) (S p))).
  - rewrite IH by (rewrite swap_length; lia). rewrite fs_swap. set (h := fs q). assert (Hl : length h = length q) by apply map_length.
    set (v := at_ h (S p)). set (a := at_ h r). rewrite (lset_comm h r (S p) v a) by lia.
    rewrite (at_lset (lset h (S p) a) r r v) by (rewrite length_lset; lia). rewrite Nat.eqb_refl. apply sift_up_hole. rewrite length_lset. lia.
  - rewrite lset_same by (rewrite map_length; exact Hi). reflexivity.
Qed.

Variable L : NumLaws N.

Lemma hole_fill_in k h i v : hole_ok k h i -> hole_ok k (lset h i v) i.
Proof.
  intros [A B C]. constructor.
  - rewrite length_lset. exact A.
  - intros j Hj Hne Hpe. rewrite length_lset in Hj. rewrite !at_lset by exact A.
    destruct (Nat.eqb_spec i j); [congruence|]. destruct (Nat.eqb_spec i (par j)); [congruence|]. apply B; assumption.
  - intros j Hj Hpe H0. rewrite length_lset in Hj. rewrite !at_lset by exact A. pose proof (par_lt j ltac:(lia)). pose proof (par_lt i H0).
    destruct (Nat.eqb_spec i (par i)); [lia|]. destruct (Nat.eqb_spec i j); [lia|]. apply C; assumption.
Qed.

(** moving the child [c] of the hole [i] up *)
Lemma hole_down k h i c : hole_ok k h i -> (0 < c < length h)%nat -> par c = i ->
  (forall s, (0 < s < length h)%nat -> par s = i -> above k (at_ h c) (at_ h s)) -> hole_ok k (lset h i (at_ h c)) c.
Proof.
  intros [A B C] Hc Hpc Hmin. pose proof (par_lt c ltac:(lia)) as Hlt. constructor.
  - rewrite length_lset. lia.
  - intros j Hj Hne Hpe. rewrite length_lset in Hj. rewrite !at_lset by exact A.
    destruct (Nat.eqb_spec i j) as [Hqi|Hqi].
    + subst j. destruct (Nat.eqb_spec i (par i)) as [E|E]; [pose proof (par_lt i ltac:(lia)); lia|]. apply C; [lia|exact Hpc|lia].
    + destruct (Nat.eqb_spec i (par j)) as [E|E]; [apply Hmin; [lia|congruence]|]. apply B; [lia|congruence|congruence].
  - intros j Hj Hpi Hc0. rewrite length_lset in Hj. rewrite !at_lset by exact A. pose proof (par_lt j ltac:(lia)).
    destruct (Nat.eqb_spec i j) as [Hqi|Hqi]; [lia|]. rewrite Hpc, Nat.eqb_refl. rewrite <- Hpi. apply B; [lia|congruence|lia].
Qed.

Lemma dsiftdown_ok k : forall f q i, (length q <= i + f)%nat -> total_on k (fs q) -> hole_ok k (fs q) i ->
  ((0 < i)%nat -> above k (at_ (fs q) (par i)) (at_ (fs q) i)) -> heap_ok k (fs (dsiftdown f k q i)).
Proof.
  induction f as [|f IH]; intros q i Hf T H Hp; pose proof (ho_in _ _ _ H) as Hi; rewrite map_length in Hi; [lia|]. cbn [dsiftdown].
  set (h := fs q) in *. assert (Hl : length h = length q) by apply map_length.
  assert (Hdone : fits k h i (at_ h i) -> heap_ok k h).
  { intros F. rewrite <- (lset_same h i) by lia. apply fill; auto. }
  destruct (Nat.ltb_spec (2 * i + 1) (length q)) as [Hn|Hn].
  2:{ apply Hdone. intros j Hj Hpj. apply (par_iff j i) in Hpj; lia. }
  cbv zeta. set (c := top_child k q i). destruct (top_child_range k q i Hn) as [H1 [H2 H3]]. fold c in H1, H2, H3.
  assert (Hmin : forall s, (0 < s < length h)%nat -> par s = i -> above k (at_ h c) (at_ h s)).
  { intros s Hs Hps. apply (par_iff s i) in Hps; [|lia]. unfold c, top_child, dless. rewrite <- !at_fs. fold h. unfold fmcompare.
    destruct (Nat.ltb_spec (2 * i + 2) (length q)).
    - destruct (nltb (k (at_ h (2 * i + 2))) (k (at_ h (2 * i + 1)))) eqn:E; destruct Hps as [->| ->].
      + apply (above_lt L). exact E.
      + apply (above_refl L).
      + apply (above_refl L).
      + exact E.
    - destruct Hps as [->| ->]; [apply (above_refl L)|lia]. }
  unfold dless. rewrite <- !at_fs. fold h. destruct (fmcompare k (at_ h c) (at_ h i)) eqn:Ec; cbn [negb]; unfold fmcompare in Ec.
  - apply Hdone. intros j Hj Hpj. apply (above_trans L k _ (at_ h c)); [apply T, at_In; lia|apply (above_lt L); exact Ec|auto].
  - apply IH.
    + rewrite swap_length. lia.
    + intros x Hx. apply T. eapply Permutation_in; [apply Permutation_map, (swap_perm' q c i); lia|exact Hx].
    + rewrite fs_swap. fold h. rewrite (lset_comm h c i) by lia. apply hole_fill_in. apply hole_down; auto. lia.
    + intros _. rewrite fs_swap. fold h. rewrite H2. rewrite !at_lset by (rewrite ?length_lset; lia).
      rewrite !Nat.eqb_refl. destruct (Nat.eqb_spec i c); [lia|]. exact Ec.
Qed.

Lemma dsiftup_ok k f q i : (i < f)%nat -> total_on k (fs q) -> hole_ok k (fs q) i -> fits k (fs q) i (at_ (fs q) i) -> heap_ok k (fs (dsiftup f k q i)).
Proof.
  intros Hf T H F. pose proof (ho_in _ _ _ H) as Hi. rewrite map_length in Hi. rewrite dsiftup_fs by exact Hi.
  apply (sift_up_ok L); auto.
  - apply T, at_In. rewrite map_length. exact Hi.
  - intros j Hj _. apply T, at_In. exact Hj.
Qed.

(** *** push *)
Lemma d_push_perm k i h : Permutation (dh_q (d_push k i h)) ((i, dh_next h) :: dh_q h).
Proof.
  unfold d_push. cbn [dh_q]. rewrite dsiftup_perm by (rewrite app_length; cbn; lia). symmetry. apply Permutation_cons_append.
Qed.
Lemma d_push_heap k i h : total_on k (i :: fs (dh_q h)) -> heap_ok k (fs (dh_q h)) -> heap_ok k (fs (dh_q (d_push k i h))).
Proof.
  intros T H. unfold d_push. cbn [dh_q]. set (q := dh_q h) in *. set (q2 := q ++ [(i, dh_next h)]).
  assert (E : fs q2 = fs q ++ [i]) by (unfold q2; rewrite map_app; reflexivity). assert (Hl : length (fs q) = length q) by apply map_length.
  apply dsiftup_ok.
  - unfold q2. rewrite app_length. cbn. lia.
  - rewrite E. intros x Hx. apply T. apply in_app_or in Hx. destruct Hx as [Hx|[<-|[]]]; [right|left]; auto.
  - rewrite E. constructor.
    + rewrite app_length. cbn. lia.
    + intros j Hj Hne Hpe. rewrite app_length in Hj. cbn in Hj. pose proof (par_lt j ltac:(lia)). rewrite !at_app_l by lia. apply H. lia.
    + intros j Hj Hpe _. rewrite app_length in Hj. cbn in Hj. pose proof (par_lt j ltac:(lia)). lia.
  - rewrite E. intros j Hj Hpe. rewrite app_length in Hj. cbn in Hj. pose proof (par_lt j ltac:(lia)). lia.
Qed.

(** *** pop *)
Lemma pop_split (e : entry) r : r <> [] -> exists mid l, r = mid ++ [l] /\ removelast (swap (e :: r) 0 (length (e :: r) - 1)) = l :: mid.
Proof.
  intros Hr. destruct (exists_last Hr) as [mid [l ->]]. exists mid, l. split; [reflexivity|].
  assert (E : swap (e :: mid ++ [l]) 0 (length (e :: mid ++ [l]) - 1) = l :: mid ++ [e]).
  { cbn [length]. rewrite app_length. cbn [length]. replace (S (length mid + 1) - 1)%nat with (S (length mid)) by lia.
    unfold swap. unfold ent at 2. cbn [nth]. unfold ent. cbn [nth lset]. rewrite app_nth2, Nat.sub_diag by lia. cbn [nth]. f_equal.
    clear. induction mid as [|z mid IH]; cbn; [reflexivity|]. rewrite IH. reflexivity. }
  rewrite E. change (l :: mid ++ [e]) with ((l :: mid) ++ [e]). apply removelast_last.
Qed.

Lemma d_pop_spec k h m h' : d_pop k h = Some (m, h') -> exists u, Permutation (dh_q h) ((m, u) :: dh_q h') /\
  dh_handles h' = dh_handles h /\ dh_next h' = dh_next h /\ at_ (fs (dh_q h)) 0 = m /\ (0 < length (dh_q h))%nat /\
  (total_on k (fs (dh_q h)) -> heap_ok k (fs (dh_q h)) -> heap_ok k (fs (dh_q h'))).
Proof.
  unfold d_pop. destruct (dh_q h) as [|e r] eqn:Eq; [discriminate|]. cbv zeta. remember (removelast (swap (e :: r) 0 (length (e :: r) - 1))) as q1 eqn:Eq1.
  intros E. injection E as <- <-. cbn [dh_q dh_handles dh_next].
  exists (snd e). rewrite <- surjective_pairing.
  destruct r as [|e2 r].
  { cbn in Eq1. subst q1. cbn. repeat split; auto. intros _ _ i Hi. cbn in Hi. lia. }
  set (w := e2 :: r) in *. assert (Hw : w <> []) by discriminate. clearbody w.
  destruct (pop_split e w Hw) as [mid [l [Er Es]]]. rewrite Es in Eq1. subst q1. rewrite Er.
  set (q2 := l :: mid). split; [|split; [reflexivity|split; [reflexivity|split; [reflexivity|split; [cbn; lia|]]]]].
  - apply perm_skip. rewrite dsiftdown_perm by (cbn; lia). unfold q2. symmetry. apply Permutation_cons_append.
  - intros T H. assert (Hat : forall i, (0 < i < length q2)%nat -> at_ (fs q2) i = at_ (fs (e :: mid ++ [l])) i).
    { intros [|i] Hi; [lia|]. cbn in Hi. unfold q2, at_. cbn [map nth]. rewrite map_app, app_nth1 by (rewrite map_length; lia). reflexivity. }
    assert (Hlen : length (e :: mid ++ [l]) = S (length q2)) by (unfold q2; cbn; rewrite app_length; cbn; lia).
    apply dsiftdown_ok.
    + lia.
    + intros x Hx. apply T. unfold q2 in Hx. cbn [map] in *. destruct Hx as [<-|Hx]; right; rewrite map_app; apply in_or_app; [right; left; reflexivity|left; exact Hx].
    + constructor.
      * rewrite map_length. unfold q2. cbn. lia.
      * intros i Hi Hne Hpe. rewrite map_length in Hi. pose proof (par_lt i ltac:(lia)). rewrite !Hat by lia. apply H. rewrite map_length, Hlen. lia.
      * lia.
    + lia.
Qed.

(** *** handles *)
Lemma pos_in (u : Z) q : forall i, In (i, u) q -> NoDup (map snd q) -> exists p, pos u q = Some p /\ (p < length q)%nat /\ ent q p = (i, u).
Proof.
  induction q as [|[j w] q IH]; intros i Hi Hnd; [destruct Hi|]. cbn [map snd] in Hnd. inversion Hnd; subst. cbn [pos].
  destruct (Z.eqb_spec w u) as [->|Hne].
  - exists O. split; [reflexivity|]. split; [cbn; lia|]. destruct Hi as [E|Hi]; [exact E|]. exfalso. apply H1. apply in_map_iff. exists (i, u). auto.
  - destruct Hi as [E|Hi]; [congruence|]. destruct (IH i Hi H2) as [p [E1 [E2 E3]]]. rewrite E1. exists (S p). split; [reflexivity|]. split; [cbn; lia|exact E3].
Qed.

Record dwf (h : dheap) : Prop := {
  dw_uid : NoDup (map snd (dh_q h));
  dw_next : forall e, In e (dh_q h) -> snd e < dh_next h
}.
Record dwf1 (h : dheap) : Prop := {
  dw_wf : dwf h;
  dw_nd : NoDup (fs (dh_q h));
  dw_h : forall i u, In (i, u) (dh_q h) -> lookup i (dh_handles h) = Some u
}.

Lemma dwf_perm q' h : dwf h -> Permutation q' (dh_q h) -> dwf (mkDh q' (dh_handles h) (dh_next h)).
Proof.
  intros [A B] P. constructor; cbn [dh_q dh_next].
  - eapply Permutation_NoDup; [|exact A]. symmetry. apply Permutation_map, P.
  - intros e He. apply B. eapply Permutation_in; eauto.
Qed.
Lemma dwf1_perm q' h : dwf1 h -> Permutation q' (dh_q h) -> dwf1 (mkDh q' (dh_handles h) (dh_next h)).
Proof.
  intros [A B C] P. constructor; cbn [dh_q dh_next dh_handles].
  - apply dwf_perm; assumption.
  - eapply Permutation_NoDup; [|exact B]. symmetry. apply Permutation_map, P.
  - intros i u Hi. apply C. eapply Permutation_in; eauto.
Qed.
Lemma dwf_push k i h : dwf h -> dwf (d_push k i h).
Proof.
  intros [A B]. pose proof (d_push_perm k i h) as P. constructor.
  - eapply Permutation_NoDup; [symmetry; apply Permutation_map, P|]. cbn [map snd]. constructor; [|exact A].
    intros K. apply in_map_iff in K. destruct K as [e [E He]]. specialize (B e He). lia.
  - intros e He. apply (Permutation_in _ P) in He. change (dh_next (d_push k i h)) with (dh_next h + 1). destruct He as [<-|He]; [cbn; lia|specialize (B e He); lia].
Qed.
Lemma d_pop_wf k h m h' : dwf h -> d_pop k h = Some (m, h') -> dwf h'.
Proof.
  intros [A B] E. destruct (d_pop_spec k h m h' E) as [u [P [_ [En _]]]]. constructor.
  - pose proof (Permutation_NoDup (Permutation_map snd P) A) as K. cbn in K. inversion K; assumption.
  - intros e He. rewrite En. apply B. eapply Permutation_in; [symmetry; exact P|right; exact He].
Qed.

Definition dval (h : dheap) (i : Z) : Prop := exists u, lookup i (dh_handles h) = Some u /\ In (i, u) (dh_q h).

Lemma d_increase_spec k i h : dwf h -> dval h i -> exists p, (p < length (dh_q h))%nat /\ fst (ent (dh_q h) p) = i /\
  d_increase k i h = Ok (mkDh (dsiftup (length (dh_q h)) k (dh_q h) p) (dh_handles h) (dh_next h)).
Proof.
  intros W [u [E Hi]]. destruct (pos_in u _ i Hi (dw_uid _ W)) as [p [E1 [E2 E3]]]. exists p. split; [exact E2|]. split; [rewrite E3; reflexivity|].
  unfold d_increase. rewrite E, E1. reflexivity.
Qed.

Lemma fs_perm q q' : Permutation q q' -> Permutation (fs q) (fs q').
Proof. apply Permutation_map. Qed.

Definition DaryBag : BagLaws (DaryHeap (N := N)).
Proof.
  refine (Build_BagLaws N DaryHeap (dwf : heap DaryHeap -> Prop) (dval : heap DaryHeap -> Z -> Prop) _ _ _ _ _ _); cbn [DaryHeap heap hempty hpush hincrease hpop helems].
  - intros h i _ [u [_ Hi]]. apply in_map_iff. exists (i, u). auto.
  - split; [|reflexivity]. constructor; cbn; [constructor|intros e []].
  - intros k i h W. pose proof (d_push_perm k i h) as P. split; [apply dwf_push; exact W|]. split; [exact (fs_perm _ _ P)|]. split.
    + exists (dh_next h). split; [cbn; rewrite Z.eqb_refl; reflexivity|]. eapply Permutation_in; [symmetry; exact P|left; reflexivity].
    + intros x [u [E Hx]]. destruct (Z.eq_dec i x) as [->|Hne].
      * exists (dh_next h). split; [cbn; rewrite Z.eqb_refl; reflexivity|]. eapply Permutation_in; [symmetry; exact P|left; reflexivity].
      * exists u. split; [cbn; destruct (Z.eqb_spec i x); [congruence|exact E]|]. eapply Permutation_in; [symmetry; exact P|right; exact Hx].
  - intros k i h W V. destruct (d_increase_spec k i h W V) as [p [Hp [_ E]]]. rewrite E. eexists. split; [reflexivity|].
    pose proof (dsiftup_perm (length (dh_q h)) k (dh_q h) p Hp) as P. split; [apply dwf_perm; assumption|]. cbn [dh_q]. split.
    + intros x. split; apply Permutation_in; [apply fs_perm, P|symmetry; apply fs_perm, P].
    + intros x [u [E1 Hx]]. exists u. split; [exact E1|]. eapply Permutation_in; [symmetry; exact P|exact Hx].
  - intros k h _. unfold d_pop. destruct (dh_q h); split; try reflexivity; discriminate.
  - intros k h m h' W E. destruct (d_pop_spec k h m h' E) as [u [P [Eh [En _]]]]. split; [eapply d_pop_wf; eauto|]. split; [exact (fs_perm _ _ P)|].
    intros x Hne [w [E1 Hx]]. exists w. rewrite Eh. split; [exact E1|]. apply (Permutation_in _ P) in Hx. destruct Hx as [K|K]; [congruence|exact K].
Defined.

Lemma dwf1_val h i : dwf1 h -> In i (fs (dh_q h)) -> dval h i.
Proof. intros W Hi. apply in_map_iff in Hi. destruct Hi as [[j u] [<- Hu]]. exists u. split; [apply (dw_h _ W); exact Hu|exact Hu]. Qed.

(** the keys change at [i] only, downwards *)
Lemma incr_heap k k' q p i : (p < length q)%nat -> fst (ent q p) = i -> NoDup (fs q) -> total_on k (fs q) -> total_on k' (fs q) -> heap_ok k (fs q) ->
  (forall x, In x (fs q) -> x <> i -> k x = k' x) -> nltb (k i) (k' i) = false -> heap_ok k' (fs (dsiftup (length q) k' q p)).
Proof.
  intros Hp Ei Hnd T T' H Hk Hlow. set (h := fs q) in *. assert (Hl : length h = length q) by apply map_length.
  assert (Eat : at_ h p = i) by (unfold h; rewrite at_fs; exact Ei).
  assert (Hneq : forall j, (j < length h)%nat -> j <> p -> at_ h j <> i).
  { intros j Hj Hne E. apply Hne. apply (proj1 (NoDup_nth h 0) Hnd j p); [lia|lia|]. unfold at_ in *. congruence. }
  assert (Hsame : forall a b, (a < length h)%nat -> (b < length h)%nat -> a <> p -> b <> p -> above k (at_ h a) (at_ h b) -> above k' (at_ h a) (at_ h b)).
  { intros a b Ha Hb Na Nb K. unfold above in *. rewrite <- !Hk; [exact K| | | |]; auto using at_In. }
  apply dsiftup_ok; [exact Hp|exact T'| |].
  - fold h. constructor; [lia| |].
    + intros j Hj Hne Hpe. pose proof (par_lt j ltac:(lia)). apply Hsame; [lia|lia|congruence|congruence|]. apply H. lia.
    + intros j Hj Hpe H0. pose proof (par_lt j ltac:(lia)). pose proof (par_lt p H0). apply Hsame; [lia|lia|lia|lia|].
      apply (above_trans L k _ (at_ h p)); [apply T, at_In; lia|apply H; lia|]. rewrite <- Hpe at 1. apply H. lia.
  - fold h. intros j Hj Hpe. pose proof (par_lt j ltac:(lia)). rewrite Eat. unfold above.
    destruct (nltb (k' (at_ h j)) (k' i)) eqn:E; [|reflexivity]. rewrite <- Hk in E by (try apply at_In; try apply Hneq; lia).
    assert (Hki : nisnan (k i) = false) by (rewrite <- Eat; apply T, at_In; lia).
    destruct (nl_cotrans N L _ (k i) _ Hki E) as [K|K]; [|congruence].
    pose proof (H j Hj) as K2. rewrite Hpe, Eat in K2. unfold above in K2. congruence.
Qed.

Definition DaryLaws : HeapLaws (DaryHeap (N := N)).
Proof.
  refine (Build_HeapLaws N DaryHeap (dwf1 : heap DaryHeap -> Prop)
    ((fun k h => total_on k (fs (dh_q h)) -> heap_ok k (fs (dh_q h))) : (Z -> N) -> heap DaryHeap -> Prop) _ _ _ _ _ _ _ _ _ _); cbn [DaryHeap heap hempty hpush hincrease hpop helems].
  - split; [|reflexivity]. constructor; [constructor; cbn; [constructor|intros e []]|cbn; constructor|intros i u []].
  - intros k i h [W Nd Hh] Hni. pose proof (d_push_perm k i h) as P. split; [|exact (fs_perm _ _ P)]. constructor.
    + apply dwf_push. exact W.
    + eapply Permutation_NoDup; [symmetry; apply fs_perm, P|]. cbn [map fst]. constructor; assumption.
    + intros x u Hx. apply (Permutation_in _ P) in Hx. cbn. destruct Hx as [E|Hx]; [injection E as <- <-; rewrite Z.eqb_refl; reflexivity|].
      destruct (Z.eqb_spec i x) as [->|_]; [|apply Hh; exact Hx]. exfalso. apply Hni. apply in_map_iff. exists (x, u). auto.
  - intros k i h W Hi. destruct (d_increase_spec k i h (dw_wf _ W) (dwf1_val h i W Hi)) as [p [Hp [_ E]]]. rewrite E. eexists. split; [reflexivity|].
    pose proof (dsiftup_perm (length (dh_q h)) k (dh_q h) p Hp) as P. split; [apply dwf1_perm; assumption|]. cbn [dh_q]. apply fs_perm, P.
  - intros k h _. unfold d_pop. destruct (dh_q h); split; try reflexivity; discriminate.
  - intros k h m h' W E. destruct (d_pop_spec k h m h' E) as [u [P [Eh [En _]]]]. split; [|exact (fs_perm _ _ P)]. constructor.
    + eapply d_pop_wf; [apply (dw_wf _ W)|exact E].
    + pose proof (Permutation_NoDup (fs_perm _ _ P) (dw_nd _ W)) as K. cbn in K. inversion K; assumption.
    + intros i w Hi. rewrite Eh. apply (dw_h _ W). eapply Permutation_in; [symmetry; exact P|right; exact Hi].
  - intros k _ i Hi. cbn in Hi. lia.
  - intros k k' h _ H Hk T' i Hi. assert (T : total_on k (fs (dh_q h))) by (intros x Hx; rewrite Hk by exact Hx; apply T'; exact Hx).
    specialize (H T i Hi). unfold above in *. pose proof (par_lt i ltac:(lia)). rewrite <- !Hk; [exact H| |]; apply at_In; lia.
  - intros k i h _ _ H T. assert (P := fs_perm _ _ (d_push_perm k i h)). assert (T2 : total_on k (i :: fs (dh_q h))) by (intros x Hx; apply T; eapply Permutation_in; [symmetry; exact P|exact Hx]).
    apply d_push_heap; [exact T2|]. apply H. intros x Hx. apply T2. right. exact Hx.
  - intros k k' i h h' W H Hi Nd Hk Hlow T E T'. destruct (d_increase_spec k' i h (dw_wf _ W) (dwf1_val h i W Hi)) as [p [Hp [Ei E2]]].
    rewrite E in E2. injection E2 as ->. cbn [dh_q] in *. pose proof (dsiftup_perm (length (dh_q h)) k' (dh_q h) p Hp) as P.
    eapply (incr_heap k k'); eauto. intros x Hx. apply T'. eapply Permutation_in; [symmetry; apply fs_perm, P|exact Hx].
  - intros k h m h' W H E T. destruct (d_pop_spec k h m h' E) as [u [P [_ [_ [Em [Hl Hh]]]]]]. split; [intros _; apply Hh; auto|].
    intros x Hx. apply (In_nth _ _ 0) in Hx. destruct Hx as [i [Hi Ei]]. rewrite <- Em, <- Ei. change (nth i (fs (dh_q h)) 0) with (at_ (fs (dh_q h)) i).
    apply (root_above L); auto.
Defined.
End D.

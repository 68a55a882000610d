(** FibHeap.v - the Fibonacci heap of FMFibHeap meets the heap laws FMM relies on. *)
From Coq Require Import Permutation.
From Verif Require Import Base BaseFacts Num NumLaws Grid FMMModel HeapRef HeapLaws BagHeap DaryModel DaryHeap FibModel.

(** *** trees *)
Lemma ftree_rect' (P : ftree -> Prop) :
  (forall e m c ch, Forall P ch -> P (FNode e m c ch)) -> forall t, P t.
Proof.
  intros H. fix IH 1. intros [e m c ch]. apply H. induction ch as [|x ch IHc]; constructor; [apply IH|exact IHc].
Qed.

Lemma ents_node e m c ch : ents (FNode e m c ch) = e :: fents ch.
Proof. reflexivity. Qed.
Lemma fents_app a b : fents (a ++ b) = fents a ++ fents b.
Proof. induction a as [|x a IH]; cbn; [reflexivity|]. rewrite IH, app_assoc. reflexivity. Qed.
Lemma fents_cons x a : fents (x :: a) = ents x ++ fents a. Proof. reflexivity. Qed.
Lemma ents_root t : exists l, ents t = ft_e t :: l.
Proof. destruct t as [e m c ch]. rewrite ents_node. eexists. reflexivity. Qed.
Lemma root_in t : In (ft_e t) (ents t).
Proof. destruct (ents_root t) as [l ->]. left. reflexivity. Qed.
Lemma fents_in e l : In e (fents l) <-> exists t, In t l /\ In e (ents t).
Proof.
  induction l as [|x l IH]; cbn; [split; [tauto|intros [t [[] _]]]|]. rewrite in_app_iff, IH. split.
  - intros [H|[t [H1 H2]]]; [exists x; auto|exists t; auto].
  - intros [t [[<-|H1] H2]]; [auto|right; exists t; auto].
Qed.
Lemma ents_set_mk m t : ents (set_mk m t) = ents t.
Proof. destruct t. cbn [set_mk]. rewrite !ents_node. reflexivity. Qed.

(** solving permutations of entries by counting *)
Lemma ent_dec (a b : entry) : {a = b} + {a <> b}.
Proof. decide equality; apply Z.eq_dec. Qed.
Definition cnt (x : entry) (l : list entry) : nat := count_occ ent_dec l x.
Lemma cnt_app x a b : cnt x (a ++ b) = (cnt x a + cnt x b)%nat.
Proof. apply count_occ_app. Qed.
Lemma cnt_cons x e (a : list entry) : cnt x (e :: a) = (cnt x [e] + cnt x a)%nat.
Proof. change (e :: a) with ([e] ++ a). apply cnt_app. Qed.
Lemma cnt_nil x : cnt x [] = 0%nat. Proof. reflexivity. Qed.
Lemma cnt_perm a b : (forall x, cnt x a = cnt x b) <-> Permutation a b.
Proof. symmetry. apply (Permutation_count_occ ent_dec). Qed.
Lemma cnt_fnil x : cnt x (fents []) = 0%nat. Proof. reflexivity. Qed.
Ltac psimp := repeat (rewrite ?fents_app, ?fents_cons, ?ents_node, ?ents_set_mk, ?cnt_app, ?cnt_nil, ?cnt_fnil);
  repeat match goal with |- context [cnt ?x (?e :: ?a)] => lazymatch a with [] => fail | _ => rewrite (cnt_cons x e a) end end;
  repeat (rewrite ?fents_app, ?fents_cons, ?ents_node, ?ents_set_mk, ?cnt_app, ?cnt_nil, ?cnt_fnil).
Ltac pin H := let K := fresh in pose proof (fun x => proj2 (cnt_perm _ _) H x) as K; clear H; rename K into H.
Ltac pc := apply cnt_perm; intros ?x; psimp.

(** entries of the way up *)
Fixpoint uents (ups : list up) : list entry :=
  match ups with [] => [] | u :: r => up_e u :: fents (up_l u) ++ fents (up_r u) ++ uents r end.

Lemma plug_ents ups : forall l, Permutation (fents (plug l ups)) (fents l ++ uents ups).
Proof.
  induction ups as [|u r IH]; intros l; cbn [plug uents]; [rewrite app_nil_r; reflexivity|].
  rewrite IH. pc. lia.
Qed.

(** *** finding nodes *)
Definition lo_forest (p : loc) : list ftree := plug (lo_l p ++ lo_t p :: lo_r p) (lo_ups p).

Fixpoint flocs_in (u : Z) (pre post : list ftree) (ups : list up) : option loc :=
  match post with
  | [] => None
  | x :: q => match floc u x pre q ups with Some y => Some y | None => flocs_in u (pre ++ [x]) q ups end
  end.
Lemma floc_node u e m c ch l r ups : floc u (FNode e m c ch) l r ups =
  if snd e =? u then Some (mkLoc (FNode e m c ch) l r ups) else flocs_in u [] ch (mkUp e m c l r :: ups).
Proof.
  cbn [floc]. destruct (snd e =? u); [reflexivity|].
  match goal with |- ?F [] ch = ?G [] ch ?w => enough (A : forall pre, F pre ch = flocs_in u pre ch w) by apply A end.
  induction ch as [|x ch IH]; intros pre; [reflexivity|].
  cbn [flocs_in]. rewrite <- IH. reflexivity.
Qed.
Lemma flocs_eq u post : forall pre, flocs u pre post = flocs_in u pre post [].
Proof. induction post as [|x post IH]; intros pre; cbn; [reflexivity|]. rewrite IH. reflexivity. Qed.

Lemma flocs_in_some u ups : forall post pre p,
  (forall t, In t post -> forall l r p, floc u t l r ups = Some p -> lo_forest p = plug (l ++ t :: r) ups /\ snd (ft_e (lo_t p)) = u) ->
  flocs_in u pre post ups = Some p -> lo_forest p = plug (pre ++ post) ups /\ snd (ft_e (lo_t p)) = u.
Proof.
  induction post as [|x post IH]; intros pre p H; cbn [flocs_in]; [discriminate|].
  destruct (floc u x pre post ups) as [y|] eqn:E.
  - intros K. injection K as <-. apply (H x); [left; reflexivity|exact E].
  - intros K. apply IH in K; [|intros t Ht; apply H; right; exact Ht]. rewrite <- app_assoc in K. exact K.
Qed.
Lemma floc_some u t : forall l r ups p, floc u t l r ups = Some p -> lo_forest p = plug (l ++ t :: r) ups /\ snd (ft_e (lo_t p)) = u.
Proof.
  induction t as [e m c ch IH] using ftree_rect'. intros l r ups p. rewrite floc_node. destruct (Z.eqb_spec (snd e) u) as [E|E].
  - intros H. injection H as <-. split; [reflexivity|exact E].
  - intros H. apply flocs_in_some in H; [exact H|]. intros t Ht l' r' p'. rewrite Forall_forall in IH. apply (IH t Ht).
Qed.
Lemma flocs_in_none u ups : forall post pre,
  (forall t, In t post -> forall l r, floc u t l r ups = None -> ~ In u (map snd (ents t))) ->
  flocs_in u pre post ups = None -> ~ In u (map snd (fents post)).
Proof.
  induction post as [|x post IH]; intros pre H; cbn [flocs_in]; [intros _ []|].
  destruct (floc u x pre post ups) eqn:E; [discriminate|]. intros K. rewrite fents_cons, map_app, in_app_iff. intros [I|I].
  - exact (H x (or_introl eq_refl) _ _ E I).
  - apply IH in K; [exact (K I)|]. intros t Ht. apply H. right. exact Ht.
Qed.
Lemma floc_none u t : forall l r ups, floc u t l r ups = None -> ~ In u (map snd (ents t)).
Proof.
  induction t as [e m c ch IH] using ftree_rect'. intros l r ups. rewrite floc_node, ents_node. destruct (Z.eqb_spec (snd e) u) as [E|E]; [discriminate|].
  intros H [K|K]; [exact (E K)|]. apply flocs_in_none in H; [exact (H K)|]. intros t Ht l' r'. rewrite Forall_forall in IH. apply (IH t Ht).
Qed.

Lemma flocs_spec u l : In u (map snd (fents l)) -> exists p, flocs u [] l = Some p /\ lo_forest p = l /\ snd (ft_e (lo_t p)) = u.
Proof.
  intros H. rewrite flocs_eq. destruct (flocs_in u [] l []) as [p|] eqn:E.
  - exists p. split; [reflexivity|]. apply flocs_in_some in E; [exact E|]. intros t _ a b q. apply floc_some.
  - exfalso. apply flocs_in_none in E; [exact (E H)|]. intros t _ a b. apply floc_none.
Qed.
Lemma flocs_some u l p : flocs u [] l = Some p -> lo_forest p = l /\ snd (ft_e (lo_t p)) = u.
Proof. rewrite flocs_eq. intros E. apply flocs_in_some in E; [exact E|]. intros t _ a b q. apply floc_some. Qed.

(** the entries around a node *)
Definition lo_rest (p : loc) : list entry := fents (lo_l p) ++ fents (lo_r p) ++ uents (lo_ups p).
Lemma lo_forest_ents p : Permutation (fents (lo_forest p)) (ents (lo_t p) ++ lo_rest p).
Proof.
  unfold lo_forest, lo_rest. rewrite plug_ents. pc. lia.
Qed.

Section F.
Context {N : Num}.
Implicit Types (k : Z -> N).
Notation fs := (map fst).

Lemma ents_link n o : Permutation (ents (link n o)) (ents n ++ ents o).
Proof.
  destruct n as [e m c ch]. cbn [link]. pc. lia.
Qed.

Lemma cnt_link x n o : cnt x (ents (link n o)) = (cnt x (ents n) + cnt x (ents o))%nat.
Proof. rewrite <- cnt_app. apply cnt_perm, ents_link. Qed.

Lemma by_rank_some r l : forall pre b o a, by_rank r pre l = Some (b, o, a) -> pre ++ l = b ++ o :: a.
Proof.
  induction l as [|t l IH]; intros pre b o a; cbn [by_rank]; [discriminate|]. destruct (ft_cnt t =? r).
  - intros H. injection H as -> -> ->. reflexivity.
  - intros H. apply IH in H. rewrite <- app_assoc in H. exact H.
Qed.

(** what a run of the inner loop does to a list of roots *)
Lemma merge_loop_ents k f : forall b n a b' n' a', merge_loop f k b n a = (b', n', a') ->
  Permutation (fents (b' ++ n' :: a')) (fents (b ++ n :: a)).
Proof.
  induction f as [|f IH]; intros b n a b' n' a'; cbn [merge_loop]; [intros H; injection H as <- <- <-; reflexivity|].
  destruct (by_rank (ft_cnt n) [] b) as [[[b1 o] b2]|] eqn:E.
  - apply by_rank_some in E. cbn in E. subst b. destruct (dless k (ft_e n) (ft_e o)); intros H; apply IH in H; rewrite H; pc; rewrite cnt_link; lia.
  - destruct (by_rank (ft_cnt n) [] a) as [[[a1 o] a2]|] eqn:E2; [|intros H; injection H as <- <- <-; reflexivity].
    apply by_rank_some in E2. cbn in E2. subst a. destruct (dless k (ft_e n) (ft_e o)); intros H; apply IH in H; rewrite H; pc; rewrite cnt_link; lia.
Qed.

Lemma consolidate_ents k todo : forall done top r top', consolidate k done todo top = (r, top') ->
  Permutation (fents r) (fents (done ++ todo)).
Proof.
  induction todo as [|t q IH]; intros done top r top'; cbn [consolidate]; [intros H; injection H as <- _; rewrite app_nil_r; reflexivity|].
  destruct (merge_loop (length done) k done t []) as [[b n] a] eqn:E. intros H. apply IH in H. rewrite H. apply merge_loop_ents in E.
  rewrite fents_app, E. pc. lia.
Qed.

(** the top is one of the entries *)
Lemma consolidate_top_in k todo : forall done top r top', consolidate k done todo top = (r, top') ->
  In top (fents (done ++ todo)) -> In top' (fents r).
Proof.
  induction todo as [|t q IH]; intros done top r top'; cbn [consolidate]; [intros H; injection H as <- <-; rewrite app_nil_r; auto|].
  destruct (merge_loop (length done) k done t []) as [[b n] a] eqn:E. intros H K. eapply IH; [exact H|]. apply merge_loop_ents in E.
  rewrite fents_app, in_app_iff. destruct (negb _).
  - left. apply fents_in. exists n. split; [apply in_or_app; right; left; reflexivity|apply root_in].
  - rewrite fents_app, in_app_iff, fents_cons, in_app_iff in K. destruct K as [K|[K|K]]; [left|left|right; exact K];
      (eapply Permutation_in; [symmetry; exact E|]); rewrite fents_app, in_app_iff, fents_cons, in_app_iff; auto.
Qed.

Lemma consolidated_ents k roots h : Permutation (f_entries (consolidated k roots h)) (fents roots).
Proof.
  unfold consolidated, f_entries. destruct roots as [|t r]; [reflexivity|]. destruct (consolidate k [] (t :: r) (ft_e t)) as [q top] eqn:E.
  apply consolidate_ents in E. exact E.
Qed.

Definition top_in (h : fheap) : Prop := match fh_top h with None => f_entries h = [] | Some e => In e (f_entries h) end.

Lemma consolidated_top_in k roots h : top_in (consolidated k roots h).
Proof.
  unfold consolidated, top_in, f_entries. destruct roots as [|t r]; [reflexivity|]. destruct (consolidate k [] (t :: r) (ft_e t)) as [q top] eqn:E.
  cbn [fh_top fh_roots]. eapply consolidate_top_in; [exact E|]. cbn [app fents]. apply in_or_app. left. apply root_in.
Qed.

Lemma consolidated_rest k roots h : fh_handles (consolidated k roots h) = fh_handles h /\ fh_next (consolidated k roots h) = fh_next h.
Proof. unfold consolidated. destruct roots as [|t r]; [auto|]. destruct (consolidate k [] (t :: r) (ft_e t)). auto. Qed.

Lemma cascading_cut_ents : forall ups p l r acc,
  Permutation (fents (cascading_cut p l r ups acc)) (fents acc ++ ents p ++ fents l ++ fents r ++ uents ups).
Proof.
  induction ups as [|u q IH]; intros p l r acc; cbn [cascading_cut].
  - cbn [uents]. pc. lia.
  - destruct (up_mk u).
    + rewrite IH. cbn [uents]. pc. lia.
    + rewrite fents_app, plug_ents. cbn [uents up_e up_mk up_cnt up_l up_r]. pc. lia.
Qed.

Lemma f_increase_roots_ents k p : Permutation (fents (f_increase_roots k p)) (fents (lo_forest p)).
Proof.
  rewrite lo_forest_ents. unfold f_increase_roots, lo_rest. destruct (lo_ups p) as [|u q] eqn:Eu.
  - cbn [uents]. pc. lia.
  - destruct (dless k (up_e u) (ft_e (lo_t p))).
    + rewrite cascading_cut_ents. cbn [uents]. pc. lia.
    + rewrite plug_ents. pc. lia.
Qed.
Lemma f_increase_at_ents k p h : lo_forest p = fh_roots h -> Permutation (f_entries (f_increase_at k p h)) (f_entries h).
Proof. intros E. unfold f_entries. cbn [f_increase_at fh_roots]. rewrite f_increase_roots_ents, E. reflexivity. Qed.
Lemma f_increase_at_top k p h : lo_forest p = fh_roots h -> top_in h -> top_in (f_increase_at k p h).
Proof.
  intros E T. pose proof (f_increase_at_ents k p h E) as P. unfold top_in in *. cbn [f_increase_at fh_top].
  destruct (fh_top h) as [t|]; [|rewrite T in P; apply Permutation_nil; symmetry; exact P].
  assert (Hn : In (ft_e (lo_t p)) (f_entries h)).
  { unfold f_entries. rewrite <- E. eapply Permutation_in; [symmetry; apply lo_forest_ents|]. apply in_or_app. left. apply root_in. }
  destruct (dless k t (ft_e (lo_t p))); (eapply Permutation_in; [symmetry; exact P|]); assumption.
Qed.

Lemma f_update_at_ents k p h : lo_forest p = fh_roots h -> Permutation (f_entries (f_update_at k p h)) (f_entries h).
Proof.
  intros E. unfold f_entries at 2. rewrite <- E, lo_forest_ents. unfold f_update_at. destruct (lo_t p) as [e m c ch]. rewrite consolidated_ents.
  unfold lo_rest. destruct (lo_ups p) as [|u q].
  - cbn [uents]. pc. lia.
  - rewrite fents_app, fents_cons, plug_ents. cbn [uents up_e up_l up_r up_mk up_cnt]. pc. lia.
Qed.

(** *** heap order *)
Inductive hok k : ftree -> Prop :=
| hok_node e m c ch : Forall (fun t => above k (fst e) (fst (ft_e t)) /\ hok k t) ch -> hok k (FNode e m c ch).

Lemma hok_inv k e m c ch : hok k (FNode e m c ch) -> Forall (fun t => above k (fst e) (fst (ft_e t)) /\ hok k t) ch.
Proof. intros H. inversion H. assumption. Qed.
Lemma hok_ch k e m c ch : hok k (FNode e m c ch) -> Forall (hok k) ch.
Proof. intros H. apply hok_inv in H. eapply Forall_impl; [|exact H]. intros a [_ K]. exact K. Qed.
Lemma hok_set_mk k m t : hok k t -> hok k (set_mk m t).
Proof. destruct t. intros H. apply hok_inv in H. constructor. exact H. Qed.
Lemma hok_leaf k e m c : hok k (FNode e m c []).
Proof. constructor. constructor. Qed.
Lemma hok_ext k k' t : (forall e, In e (ents t) -> k (fst e) = k' (fst e)) -> hok k t -> hok k' t.
Proof.
  induction t as [e m c ch IH] using ftree_rect'. intros Hk H. apply hok_inv in H. constructor. rewrite Forall_forall in *. intros t Ht.
  destruct (H t Ht) as [A B]. rewrite ents_node in Hk. split.
  - unfold above in *. rewrite <- !Hk; [exact A|left; reflexivity|right; apply fents_in; exists t; split; [exact Ht|apply root_in]].
  - apply IH; [exact Ht| |exact B]. intros x Hx. apply Hk. right. apply fents_in. exists t. auto.
Qed.
Lemma hok_link k n o : above k (fst (ft_e n)) (fst (ft_e o)) -> hok k n -> hok k o -> hok k (link n o).
Proof.
  destruct n as [e m c ch]. cbn [link ft_e]. intros A Hn Ho. apply hok_inv in Hn. constructor. apply Forall_app. split; [exact Hn|]. constructor; [auto|constructor].
Qed.
Lemma link_e n o : ft_e (link n o) = ft_e n. Proof. destruct n. reflexivity. Qed.

(** replacing, removing and adding a subtree *)
Lemma plug_sub k ups : forall l, Forall (hok k) (plug l ups) -> Forall (hok k) l.
Proof.
  induction ups as [|u r IH]; intros l H; cbn [plug] in H; [exact H|]. apply IH in H. apply Forall_app in H. destruct H as [_ H]. inversion H; subst. eapply hok_ch. eassumption.
Qed.
Lemma plug_replace k ups : forall l x r x', Forall (hok k) (plug (l ++ x :: r) ups) -> hok k x' -> ft_e x' = ft_e x -> Forall (hok k) (plug (l ++ x' :: r) ups).
Proof.
  induction ups as [|u q IH]; intros l x r x' H Hx E; cbn [plug] in *.
  - apply Forall_app in H. destruct H as [A B]. inversion B; subst. apply Forall_app. split; [exact A|]. constructor; assumption.
  - eapply IH; [exact H| |reflexivity]. apply plug_sub in H. apply Forall_app in H. destruct H as [_ H]. inversion H as [|? ? K _]; subst. apply hok_inv in K. constructor.
    apply Forall_app in K. destruct K as [A B]. inversion B as [|? ? [C D] B']; subst. apply Forall_app. split; [exact A|]. constructor; [|exact B']. split; [rewrite E; exact C|exact Hx].
Qed.
Lemma plug_remove k ups l x r : Forall (hok k) (plug (l ++ x :: r) ups) -> Forall (hok k) (plug (l ++ r) ups).
Proof.
  destruct ups as [|u q]; cbn [plug]; intros H.
  - apply Forall_app in H. destruct H as [A B]. inversion B; subst. apply Forall_app. auto.
  - eapply plug_replace; [exact H| |reflexivity]. apply plug_sub in H. apply Forall_app in H. destruct H as [_ H]. inversion H as [|? ? K _]; subst. apply hok_inv in K. constructor.
    apply Forall_app in K. destruct K as [A B]. inversion B; subst. apply Forall_app. auto.
Qed.
Lemma plug_add k ups l x r : Forall (hok k) (plug (l ++ r) ups) -> hok k x ->
  match ups with [] => True | u :: _ => above k (fst (up_e u)) (fst (ft_e x)) end -> Forall (hok k) (plug (l ++ x :: r) ups).
Proof.
  destruct ups as [|u q]; cbn [plug]; intros H Hx Ha.
  - apply Forall_app in H. destruct H as [A B]. apply Forall_app. split; [exact A|]. constructor; assumption.
  - eapply plug_replace; [exact H| |reflexivity]. apply plug_sub in H. apply Forall_app in H. destruct H as [_ H]. inversion H as [|? ? K _]; subst. apply hok_inv in K. constructor.
    apply Forall_app in K. destruct K as [A B]. apply Forall_app. split; [exact A|]. constructor; auto.
Qed.
(** the mark and the counter of a parent do not matter *)
Lemma plug_mark k l u q m c : Forall (hok k) (plug l (u :: q)) -> Forall (hok k) (plug l (mkUp (up_e u) m c (up_l u) (up_r u) :: q)).
Proof.
  cbn [plug up_e up_mk up_cnt up_l up_r]. intros H. eapply plug_replace; [exact H| |reflexivity].
  apply plug_sub in H. apply Forall_app in H. destruct H as [_ H]. inversion H as [|? ? K _]; subst. apply hok_inv in K. constructor. exact K.
Qed.

Lemma cascading_cut_hok k : forall ups p l r acc, Forall (hok k) acc -> Forall (hok k) (plug (l ++ p :: r) ups) -> Forall (hok k) (cascading_cut p l r ups acc).
Proof.
  induction ups as [|u q IH]; intros p l r acc Ha H; cbn [cascading_cut].
  - apply Forall_app. auto.
  - destruct (up_mk u).
    + apply IH.
      * constructor; [|exact Ha]. apply hok_set_mk. apply plug_sub in H. apply Forall_app in H. destruct H as [_ H]. inversion H; assumption.
      * apply plug_remove in H. apply (plug_mark k _ u q true (up_cnt u - 1)) in H. exact H.
    + apply Forall_app. split; [exact Ha|]. apply (plug_mark k _ u q true (up_cnt u)). exact H.
Qed.

Lemma forall_hok_ext k k' l : (forall e, In e (fents l) -> k (fst e) = k' (fst e)) -> Forall (hok k) l -> Forall (hok k') l.
Proof.
  intros Hk H. rewrite Forall_forall in *. intros t Ht. eapply hok_ext; [|apply H; exact Ht]. intros e He. apply Hk. apply fents_in. exists t. auto.
Qed.

Variable L : NumLaws N.

Lemma hok_min k t : (forall e, In e (ents t) -> nisnan (k (fst e)) = false) -> hok k t -> forall e, In e (ents t) -> above k (fst (ft_e t)) (fst e).
Proof.
  induction t as [e m c ch IH] using ftree_rect'. rewrite ents_node. cbn [ft_e]. intros T H x [<-|Hx]; [apply (above_refl L)|].
  apply hok_inv in H. rewrite Forall_forall in *. apply fents_in in Hx. destruct Hx as [t [Ht Hx]]. destruct (H t Ht) as [A B].
  assert (T2 : forall e, In e (ents t) -> nisnan (k (fst e)) = false) by (intros y Hy; apply T; right; apply fents_in; exists t; auto).
  apply (above_trans L k _ (fst (ft_e t))); [apply T2, root_in|exact A|]. apply IH; assumption.
Qed.

Definition tot k (l : list entry) : Prop := forall e, In e l -> nisnan (k (fst e)) = false.

(** the roots of a list of trees *)
Notation rts := (map ft_e).
Lemma rts_in e l : In e (rts l) -> In e (fents l).
Proof. intros H. apply in_map_iff in H. destruct H as [t [<- Ht]]. apply fents_in. exists t. split; [exact Ht|apply root_in]. Qed.

(** one merge: the roots are the same but for some that are now below [n'] *)
Lemma merge_loop_hok k f : forall b n a b' n' a', merge_loop f k b n a = (b', n', a') -> tot k (fents (b ++ n :: a)) ->
  Forall (hok k) (b ++ n :: a) ->
  Forall (hok k) (b' ++ n' :: a') /\
  (forall e, In e (rts (b' ++ n' :: a')) -> In e (rts (b ++ n :: a))) /\
  (forall e, In e (rts (b ++ n :: a)) -> In e (rts (b' ++ n' :: a')) \/ above k (fst (ft_e n')) (fst e)) /\
  above k (fst (ft_e n')) (fst (ft_e n)).
Proof.
  induction f as [|f IH]; intros b n a b' n' a'; cbn [merge_loop].
  { intros H. injection H as <- <- <-. intros _ H. split; [exact H|]. split; [auto|]. split; [auto|apply (above_refl L)]. }
  (* one link of [lo] under [hi] *)
  assert (Step : forall hi lo (rest rest2 : list ftree) b2 a2, 
    merge_loop f k b2 (link hi lo) a2 = (b', n', a') -> tot k (fents (b ++ n :: a)) -> Forall (hok k) (b ++ n :: a) ->
    Permutation (b ++ n :: a) (hi :: lo :: rest) -> Permutation (b2 ++ link hi lo :: a2) (link hi lo :: rest) -> above k (fst (ft_e hi)) (fst (ft_e lo)) ->
    (n = hi \/ n = lo) ->
    Forall (hok k) (b' ++ n' :: a') /\
    (forall e, In e (rts (b' ++ n' :: a')) -> In e (rts (b ++ n :: a))) /\
    (forall e, In e (rts (b ++ n :: a)) -> In e (rts (b' ++ n' :: a')) \/ above k (fst (ft_e n')) (fst e)) /\
    above k (fst (ft_e n')) (fst (ft_e n))).
  { intros hi lo rest _ b2 a2 E T H P Q Hab Hn.
    assert (Hin : forall t, In t (b ++ n :: a) <-> t = hi \/ t = lo \/ In t rest).
    { intros t. split; intros K; [apply (Permutation_in _ P) in K; destruct K as [K|[K|K]]; auto|].
      eapply Permutation_in; [symmetry; exact P|]. destruct K as [K|[K|K]]; cbn; auto. }
    assert (Hin2 : forall t, In t (b2 ++ link hi lo :: a2) <-> t = link hi lo \/ In t rest).
    { intros t. split; intros K; [apply (Permutation_in _ Q) in K; destruct K as [K|K]; auto|].
      eapply Permutation_in; [symmetry; exact Q|]. destruct K as [K|K]; cbn; auto. }
    rewrite Forall_forall in H.
    assert (Hhi : hok k hi) by (apply H, Hin; auto). assert (Hlo : hok k lo) by (apply H, Hin; auto).
    assert (T2 : tot k (fents (b2 ++ link hi lo :: a2))).
    { intros e He. apply fents_in in He. destruct He as [t [Ht He]]. apply Hin2 in Ht. apply T. destruct Ht as [->|Ht].
      - apply (Permutation_in _ (ents_link hi lo)) in He. apply in_app_iff in He. apply fents_in. destruct He as [He|He]; [exists hi|exists lo]; (split; [apply Hin; auto|exact He]).
      - apply fents_in. exists t. split; [apply Hin; auto|exact He]. }
    destruct (IH b2 (link hi lo) a2 b' n' a' E T2) as [A [B [C D]]].
    { apply Forall_forall. intros t Ht. apply Hin2 in Ht. destruct Ht as [->|Ht]; [apply hok_link; assumption|]. apply H, Hin. auto. }
    rewrite link_e in D.
    assert (Thi : nisnan (k (fst (ft_e hi))) = false) by (apply T, fents_in; exists hi; split; [apply Hin; auto|apply root_in]).
    assert (Dlo : above k (fst (ft_e n')) (fst (ft_e lo))) by (apply (above_trans L k _ (fst (ft_e hi))); assumption).
    split; [exact A|]. split; [|split].
    - intros e He. apply B in He. apply in_map_iff in He. destruct He as [t [<- Ht]]. apply Hin2 in Ht. apply in_map_iff. destruct Ht as [->|Ht].
      + exists hi. rewrite link_e. split; [reflexivity|]. apply Hin. auto.
      + exists t. split; [reflexivity|]. apply Hin. auto.
    - intros e He. apply in_map_iff in He. destruct He as [t [<- Ht]]. apply Hin in Ht. destruct Ht as [->|[->|Ht]]; [right; exact D|right; exact Dlo|].
      apply C. apply in_map_iff. exists t. split; [reflexivity|]. apply Hin2. auto.
    - destruct Hn as [->| ->]; assumption. }
  destruct (by_rank (ft_cnt n) [] b) as [[[b1 o] b2]|] eqn:Eb.
  - apply by_rank_some in Eb. cbn in Eb. subst b. unfold dless. destruct (fmcompare k (fst (ft_e n)) (fst (ft_e o))) eqn:Ec; unfold fmcompare in Ec; intros E T H.
    + apply (Step o n (b1 ++ b2 ++ a) [] b1 (b2 ++ a)); auto.
      * rewrite <- app_assoc. cbn [app]. rewrite <- Permutation_middle. apply perm_skip. rewrite app_assoc, <- Permutation_middle. rewrite app_assoc. reflexivity.
      * rewrite <- Permutation_middle. reflexivity.
      * apply (above_lt L). exact Ec.
    + apply (Step n o (b1 ++ b2 ++ a) [] (b1 ++ b2) a); auto.
      * rewrite <- Permutation_middle. apply perm_skip. rewrite <- app_assoc. cbn [app]. rewrite <- Permutation_middle. reflexivity.
      * rewrite <- Permutation_middle. rewrite app_assoc. reflexivity.
  - destruct (by_rank (ft_cnt n) [] a) as [[[a1 o] a2]|] eqn:Ea.
    2:{ intros H. injection H as <- <- <-. intros _ H. split; [exact H|]. split; [auto|]. split; [auto|apply (above_refl L)]. }
    apply by_rank_some in Ea. cbn in Ea. subst a. unfold dless. destruct (fmcompare k (fst (ft_e n)) (fst (ft_e o))) eqn:Ec; unfold fmcompare in Ec; intros E T H.
    + apply (Step o n (b ++ a1 ++ a2) [] (b ++ a1) a2); auto.
      * rewrite <- Permutation_middle. rewrite perm_swap. apply perm_skip. rewrite !app_assoc, <- Permutation_middle. reflexivity.
      * rewrite <- Permutation_middle. rewrite app_assoc. reflexivity.
      * apply (above_lt L). exact Ec.
    + apply (Step n o (b ++ a1 ++ a2) [] b (a1 ++ a2)); auto.
      * rewrite <- Permutation_middle. apply perm_skip. rewrite !app_assoc, <- Permutation_middle. reflexivity.
      * rewrite <- Permutation_middle. reflexivity.
Qed.

(** the top after consolidation: a root, and the smallest of the roots *)
Lemma consolidate_hok k todo : forall done top r top', consolidate k done todo top = (r, top') -> tot k (fents (done ++ todo)) ->
  Forall (hok k) (done ++ todo) ->
  (done = [] /\ (exists t q, todo = t :: q /\ top = ft_e t)) \/ (In top (rts done) /\ forall e, In e (rts done) -> above k (fst top) (fst e)) ->
  Forall (hok k) r /\ In top' (rts r) /\ (forall e, In e (rts r) -> above k (fst top') (fst e)).
Proof.
  induction todo as [|t q IH]; intros done top r top'; cbn [consolidate].
  { intros H T. injection H as <- <-. rewrite app_nil_r. intros H [[_ [t [q [K _]]]]|[A B]]; [discriminate|auto]. }
  destruct (merge_loop (length done) k done t []) as [[b n] a] eqn:E. intros H T Hh Hi.
  assert (Hsub : forall e, In e (fents (done ++ [t])) -> In e (fents (done ++ t :: q))).
  { intros e. rewrite !fents_app, !fents_cons, !in_app_iff. cbn [fents]. intros [K|[K|[]]]; auto. }
  destruct (merge_loop_hok k _ _ _ _ _ _ _ E) as [A [B [C D]]].
  { intros e He. apply T, Hsub, He. }
  { apply Forall_app in Hh. destruct Hh as [A B]. inversion B; subst. apply Forall_app. split; [exact A|]. constructor; [assumption|constructor]. }
  pose proof (merge_loop_ents k _ _ _ _ _ _ _ E) as P.
  assert (Tt : forall e, In e (rts (done ++ [t])) -> nisnan (k (fst e)) = false) by (intros e He; apply T, Hsub, rts_in, He).
  assert (Hnin : In (ft_e n) (rts (b ++ n :: a))) by (apply in_map, in_or_app; right; left; reflexivity).
  eapply IH; [exact H| | |].
  - intros e He. apply T. rewrite fents_app in He. apply in_app_iff in He. rewrite fents_app, in_app_iff, fents_cons, in_app_iff. destruct He as [He|He]; [|auto].
    apply (Permutation_in _ P) in He. rewrite fents_app, fents_cons in He. cbn [fents] in He. rewrite !in_app_iff in He. destruct He as [He|[He|[]]]; auto.
  - apply Forall_app. split; [exact A|]. apply Forall_app in Hh. destruct Hh as [_ K]. inversion K; assumption.
  - right. unfold dless. destruct (fmcompare k (fst (ft_e n)) (fst top)) eqn:Ec; cbn [negb]; unfold fmcompare in Ec.
    + (* the old top is better: it is still a root *)
      destruct Hi as [[-> [t' [q' [K ->]]]]|[I1 I2]].
      * exfalso. injection K as <- <-. unfold above in D. congruence.
      * assert (It : In top (rts (done ++ [t]))) by (rewrite map_app, in_app_iff; auto).
        destruct (C top It) as [K|K]; [|unfold above in K; congruence]. split; [exact K|]. intros e He.
        apply B in He. rewrite map_app, in_app_iff in He. destruct He as [He|[<-|[]]]; [apply I2; exact He|].
        apply (above_trans L k _ (fst (ft_e n))); [apply Tt, B, Hnin|apply (above_lt L); exact Ec|exact D].
    + split; [exact Hnin|]. intros e He. apply B in He. rewrite map_app, in_app_iff in He. destruct He as [He|[<-|[]]]; [|exact D].
      destruct Hi as [[-> _]|[I1 I2]]; [destruct He|]. apply (above_trans L k _ (fst top)); [|exact Ec|apply I2; exact He].
      apply Tt. rewrite map_app, in_app_iff. auto.
Qed.

(** ordered: trees in heap order, the top a root and the smallest of the roots *)
Definition ford k (h : fheap) : Prop :=
  Forall (hok k) (fh_roots h) /\
  match fh_top h with
  | None => fh_roots h = []
  | Some e => In e (rts (fh_roots h)) /\ forall x, In x (rts (fh_roots h)) -> above k (fst e) (fst x)
  end.

Lemma consolidated_ford k roots h : tot k (fents roots) -> Forall (hok k) roots -> ford k (consolidated k roots h).
Proof.
  intros T H. unfold consolidated, ford. destruct roots as [|t r]; [cbn; split; [constructor|reflexivity]|].
  destruct (consolidate k [] (t :: r) (ft_e t)) as [q top] eqn:E. cbn [fh_roots fh_top].
  apply consolidate_hok in E; [|exact T|exact H|left; split; [reflexivity|exists t, r; auto]]. exact E.
Qed.

Lemma ford_min k h e : tot k (f_entries h) -> ford k h -> fh_top h = Some e -> forall x, In x (f_entries h) -> above k (fst e) (fst x).
Proof.
  intros T [A B] E x Hx. rewrite E in B. destruct B as [B1 B2]. unfold f_entries in Hx. apply fents_in in Hx. destruct Hx as [t [Ht Hx]].
  assert (T2 : forall y, In y (ents t) -> nisnan (k (fst y)) = false) by (intros y Hy; apply T; unfold f_entries; apply fents_in; exists t; auto).
  apply (above_trans L k _ (fst (ft_e t))); [apply T2, root_in|apply B2, in_map, Ht|]. apply hok_min; [exact T2| |exact Hx]. rewrite Forall_forall in A. auto.
Qed.

(** roots stay roots *)
Lemma rts_plug q : forall u l l' m c, rts (plug l (u :: q)) = rts (plug l' (mkUp (up_e u) m c (up_l u) (up_r u) :: q)).
Proof.
  induction q as [|u2 q IH]; intros u l l' m c; cbn [plug up_e up_mk up_cnt up_l up_r].
  - rewrite !map_app. reflexivity.
  - specialize (IH u2 (up_l u ++ FNode (up_e u) (up_mk u) (up_cnt u) l :: up_r u) (up_l u ++ FNode (up_e u) m c l' :: up_r u) (up_mk u2) (up_cnt u2)).
    cbn [plug up_e up_mk up_cnt up_l up_r] in IH. exact IH.
Qed.
Lemma rts_cascade : forall ups p l r acc e, In e (rts acc) \/ In e (rts (plug (l ++ p :: r) ups)) -> In e (rts (cascading_cut p l r ups acc)).
Proof.
  induction ups as [|u q IH]; intros p l r acc e H; cbn [cascading_cut].
  - rewrite map_app, in_app_iff. exact H.
  - destruct (up_mk u).
    + apply IH. destruct H as [H|H]; [left; right; exact H|right]. rewrite (rts_plug q u _ (l ++ r) true (up_cnt u - 1)) in H. exact H.
    + rewrite map_app, in_app_iff. destruct H as [H|H]; [left; exact H|right]. rewrite (rts_plug q u _ (l ++ p :: r) true (up_cnt u)) in H. exact H.
Qed.
Lemma rts_increase k p e : In e (rts (lo_forest p)) -> In e (rts (f_increase_roots k p)).
Proof.
  unfold lo_forest, f_increase_roots. destruct (lo_ups p) as [|u q]; [auto|]. destruct (dless k _ _); [|auto]. intros H. apply rts_cascade. right.
  rewrite (rts_plug q u _ (lo_l p ++ lo_r p) (up_mk u) (up_cnt u - 1)) in H. exact H.
Qed.

(** *** the representation invariant *)
Record fwf (h : fheap) : Prop := {
  fw_uid : NoDup (map snd (f_entries h));
  fw_next : forall e, In e (f_entries h) -> snd e < fh_next h;
  fw_top : top_in h
}.
Record fwf1 (h : fheap) : Prop := {
  fw_wf : fwf h;
  fw_nd : NoDup (fs (f_entries h));
  fw_h : forall i u, In (i, u) (f_entries h) -> lookup i (fh_handles h) = Some u
}.
Definition fval (h : fheap) (i : Z) : Prop := exists u, lookup i (fh_handles h) = Some u /\ In (i, u) (f_entries h).

Lemma nodup_snd (l : list entry) a b : NoDup (map snd l) -> In a l -> In b l -> snd a = snd b -> a = b.
Proof.
  induction l as [|x l IH]; intros Hn Ha Hb E; [destruct Ha|]. cbn in Hn. inversion Hn as [|? ? Hx Hl]; subst.
  destruct Ha as [->|Ha], Hb as [->|Hb]; [reflexivity| | |auto].
  - exfalso. apply Hx. rewrite E. apply in_map, Hb.
  - exfalso. apply Hx. rewrite <- E. apply in_map, Ha.
Qed.

(** the node of an entry *)
Lemma flocs_entry h e : NoDup (map snd (f_entries h)) -> In e (f_entries h) ->
  exists p, flocs (snd e) [] (fh_roots h) = Some p /\ lo_forest p = fh_roots h /\ ft_e (lo_t p) = e.
Proof.
  intros Hn He. destruct (flocs_spec (snd e) (fh_roots h) (in_map snd _ _ He)) as [p [E1 [E2 E3]]]. exists p. split; [exact E1|]. split; [exact E2|].
  apply (nodup_snd (f_entries h)); auto. unfold f_entries. rewrite <- E2. eapply Permutation_in; [symmetry; apply lo_forest_ents|]. apply in_or_app. left. apply root_in.
Qed.

Lemma perm_fwf h h' : fwf h -> Permutation (f_entries h') (f_entries h) -> fh_next h' = fh_next h -> top_in h' -> fwf h'.
Proof.
  intros [A B C] P E T. constructor; [|intros e He; rewrite E; apply B; eapply Permutation_in; eauto|exact T].
  eapply Permutation_NoDup; [|exact A]. symmetry. apply Permutation_map, P.
Qed.
Lemma perm_fwf1 h h' : fwf1 h -> Permutation (f_entries h') (f_entries h) -> fh_next h' = fh_next h -> fh_handles h' = fh_handles h -> top_in h' -> fwf1 h'.
Proof.
  intros [A B C] P E1 E2 T. constructor.
  - eapply perm_fwf; eauto.
  - eapply Permutation_NoDup; [|exact B]. symmetry. apply Permutation_map, P.
  - intros i u Hi. rewrite E2. apply C. eapply Permutation_in; eauto.
Qed.

(** push *)
Lemma f_push_ents k i h : f_entries (f_push k i h) = (i, fh_next h) :: f_entries h.
Proof. reflexivity. Qed.
Lemma f_push_wf k i h : fwf h -> fwf (f_push k i h).
Proof.
  intros [A B C]. constructor; rewrite ?f_push_ents.
  - cbn [map snd]. constructor; [|exact A]. intros K. apply in_map_iff in K. destruct K as [e [E He]]. specialize (B e He). lia.
  - intros e He. change (fh_next (f_push k i h)) with (fh_next h + 1). destruct He as [<-|He]; [cbn; lia|specialize (B e He); lia].
  - unfold top_in in *. rewrite f_push_ents. cbn [f_push fh_top]. destruct (fh_top h) as [t|]; [|left; reflexivity].
    destruct (dless k t (i, fh_next h)); [left; reflexivity|right; exact C].
Qed.
Lemma f_push_ford k i h : tot k (f_entries h) -> nisnan (k i) = false -> ford k h -> ford k (f_push k i h).
Proof.
  intros T Ti [A B]. unfold ford. cbn [f_push fh_roots fh_top]. split; [constructor; [apply hok_leaf|exact A]|]. cbn [map ft_e].
  destruct (fh_top h) as [t|].
  - destruct B as [B1 B2]. unfold dless. destruct (fmcompare k (fst t) (fst (i, fh_next h))) eqn:Ec; unfold fmcompare in Ec; cbn [fst] in Ec.
    + split; [left; reflexivity|]. intros x [<-|Hx]; [apply (above_refl L)|]. cbn [fst]. apply (above_trans L k _ (fst t)); [|apply (above_lt L); exact Ec|apply B2; exact Hx].
      apply T. unfold f_entries. apply rts_in, B1.
    + split; [right; exact B1|]. intros x [<-|Hx]; [exact Ec|apply B2; exact Hx].
  - rewrite B. cbn. split; [left; reflexivity|]. intros x [<-|[]]. apply (above_refl L).
Qed.

(** pop *)
Lemma f_pop_spec k h : fwf h ->
  match fh_top h with
  | None => f_pop k h = None /\ f_entries h = []
  | Some e => exists h', f_pop k h = Some (fst e, h') /\ Permutation (f_entries h) (e :: f_entries h') /\ fh_handles h' = fh_handles h /\ fh_next h' = fh_next h /\
      top_in h' /\ (tot k (f_entries h) -> Forall (hok k) (fh_roots h) -> ford k h')
  end.
Proof.
  intros [A B C]. unfold top_in in C. unfold f_pop. destruct (fh_top h) as [e|]; [|auto].
  destruct (flocs_entry h e A C) as [p [E1 [E2 E3]]]. rewrite E1. eexists. split; [reflexivity|].
  set (roots := plug (lo_l p ++ lo_r p) (lo_ups p) ++ ft_ch (lo_t p)).
  assert (P : Permutation (f_entries h) (e :: fents roots)).
  { unfold f_entries, roots. rewrite <- E2, lo_forest_ents, fents_app, plug_ents. unfold lo_rest. destruct (lo_t p) as [e' m c ch]. cbn [ft_e] in E3. subst e'. cbn [ft_ch]. pc. lia. }
  destruct (consolidated_rest k roots h) as [R1 R2]. repeat split; auto.
  - rewrite consolidated_ents. exact P.
  - apply consolidated_top_in.
  - apply consolidated_ford; [intros x Hx; apply H; eapply Permutation_in; [symmetry; exact P|right; exact Hx]|].
    rewrite <- E2 in H0. unfold lo_forest in H0. unfold roots. apply Forall_app. split; [eapply plug_remove; exact H0|].
    apply plug_sub in H0. apply Forall_app in H0. destruct H0 as [_ K]. inversion K as [|? ? K1 _]; subst. destruct (lo_t p). eapply hok_ch. exact K1.
  - apply consolidated_ford; [intros x Hx; apply H; eapply Permutation_in; [symmetry; exact P|right; exact Hx]|].
    rewrite <- E2 in H0. unfold lo_forest in H0. unfold roots. apply Forall_app. split; [eapply plug_remove; exact H0|].
    apply plug_sub in H0. apply Forall_app in H0. destruct H0 as [_ K]. inversion K as [|? ? K1 _]; subst. destruct (lo_t p). eapply hok_ch. exact K1.
Qed.
Lemma f_pop_wf k h m h' : fwf h -> f_pop k h = Some (m, h') -> fwf h' /\ fh_handles h' = fh_handles h /\ exists u, Permutation (f_entries h) ((m, u) :: f_entries h').
Proof.
  intros W E. pose proof (f_pop_spec k h W) as S. destruct (fh_top h) as [e|]; [|destruct S; congruence].
  destruct S as [h2 [E2 [P [Eh [En [T _]]]]]]. rewrite E in E2. injection E2 as -> <-. destruct W as [A B C]. split; [|split; [exact Eh|]].
  - constructor; [| |exact T].
    + pose proof (Permutation_NoDup (Permutation_map snd P) A) as K. cbn in K. inversion K; assumption.
    + intros x Hx. rewrite En. apply B. eapply Permutation_in; [symmetry; exact P|right; exact Hx].
  - exists (snd e). rewrite <- surjective_pairing. exact P.
Qed.

(** increase and update *)
Lemma f_handle_spec h i : fwf h -> fval h i -> exists p u, f_handle i h = Some p /\ lo_forest p = fh_roots h /\ ft_e (lo_t p) = (i, u).
Proof.
  intros W [u [E Hi]]. destruct (flocs_entry h (i, u) (fw_uid _ W) Hi) as [p [E1 [E2 E3]]]. exists p, u. unfold f_handle. rewrite E. auto.
Qed.
Lemma f_update_at_rest k p h : fh_handles (f_update_at k p h) = fh_handles h /\ fh_next (f_update_at k p h) = fh_next h /\ top_in (f_update_at k p h).
Proof.
  unfold f_update_at. destruct (lo_t p) as [e m c ch].
  match goal with |- context [consolidated k ?r h] => destruct (consolidated_rest k r h) as [A B]; pose proof (consolidated_top_in k r h) as C end. auto.
Qed.

(** the keys change at the cell of the node only *)
Lemma rest_agree k k' p i u : ft_e (lo_t p) = (i, u) -> NoDup (fs (fents (lo_forest p))) -> (forall x, In x (fs (fents (lo_forest p))) -> x <> i -> k x = k' x) ->
  (forall e, In e (lo_rest p) -> k (fst e) = k' (fst e)) /\ (forall e, In e (fents (ft_ch (lo_t p))) -> k (fst e) = k' (fst e)).
Proof.
  intros E Hn Hk. pose proof (lo_forest_ents p) as P. destruct (lo_t p) as [e m c ch] eqn:Et. cbn [ft_e ft_ch] in *. subst e. rewrite ents_node in P.
  assert (Hn2 : NoDup (i :: fs (fents ch ++ lo_rest p))) by (exact (Permutation_NoDup (Permutation_map fst P) Hn)).
  inversion Hn2 as [|? ? Hi _]; subst.
  assert (G : forall e, In e (fents ch ++ lo_rest p) -> k (fst e) = k' (fst e)).
  { intros e He. apply Hk; [apply in_map; eapply Permutation_in; [symmetry; exact P|right; exact He]|]. intros K. apply Hi. rewrite <- K. apply in_map, He. }
  split; intros e He; apply G, in_or_app; auto.
Qed.

Lemma hok_lower k k' e m c ch : nisnan (k (fst e)) = false -> nltb (k (fst e)) (k' (fst e)) = false -> (forall x, In x (fents ch) -> k (fst x) = k' (fst x)) ->
  hok k (FNode e m c ch) -> hok k' (FNode e m c ch).
Proof.
  intros Hn Hl Hk H. apply hok_inv in H. constructor. rewrite Forall_forall in *. intros t Ht. destruct (H t Ht) as [A B].
  assert (Hs : forall x, In x (ents t) -> k (fst x) = k' (fst x)) by (intros x Hx; apply Hk, fents_in; exists t; auto). split.
  - unfold above in *. rewrite <- (Hs (ft_e t) (root_in t)). destruct (nltb (k (fst (ft_e t))) (k' (fst e))) eqn:E; [|reflexivity].
    destruct (nl_cotrans N L _ (k (fst e)) _ Hn E) as [K|K]; congruence.
  - eapply hok_ext; [|exact B]. exact Hs.
Qed.

Lemma lo_rest_sub p e : In e (fents (plug (lo_l p ++ lo_r p) (lo_ups p))) <-> In e (lo_rest p).
Proof.
  unfold lo_rest. assert (P : Permutation (fents (plug (lo_l p ++ lo_r p) (lo_ups p))) (fents (lo_l p) ++ fents (lo_r p) ++ uents (lo_ups p))) by (rewrite plug_ents; pc; lia).
  split; apply Permutation_in; [exact P|symmetry; exact P].
Qed.

Lemma f_increase_ford k k' p i u h : lo_forest p = fh_roots h -> ft_e (lo_t p) = (i, u) -> NoDup (fs (f_entries h)) ->
  (forall x, In x (fs (f_entries h)) -> x <> i -> k x = k' x) -> nltb (k i) (k' i) = false -> tot k (f_entries h) -> tot k' (f_entries h) -> top_in h ->
  ford k h -> ford k' (f_increase_at k' p h).
Proof.
  intros E Ei Hn Hk Hl T T' Ht Hf. unfold f_entries in *. rewrite <- E in *. destruct (rest_agree k k' p i u Ei Hn Hk) as [Hr Hc].
  pose proof (lo_forest_ents p) as P.
  assert (Hself : In (i, u) (fents (lo_forest p))) by (rewrite <- Ei; eapply Permutation_in; [symmetry; exact P|]; apply in_or_app; left; apply root_in).
  (* the trees *)
  assert (F1 : Forall (hok k') (plug (lo_l p ++ lo_r p) (lo_ups p))).
  { apply (forall_hok_ext k); [intros e He; apply Hr, lo_rest_sub, He|]. destruct Hf as [Hf _]. rewrite <- E in Hf. eapply plug_remove. exact Hf. }
  assert (F2 : hok k' (lo_t p)).
  { destruct Hf as [Hf _]. rewrite <- E in Hf. unfold lo_forest in Hf. apply plug_sub in Hf. apply Forall_app in Hf. destruct Hf as [_ K]. inversion K as [|? ? K1 _]; subst.
    destruct (lo_t p) as [e m c ch]. cbn [ft_e ft_ch] in *. subst e. apply (hok_lower k k'); auto. }
  assert (F3 : Forall (hok k') (f_increase_roots k' p)).
  { unfold f_increase_roots. destruct (lo_ups p) as [|v q] eqn:Eu.
    - apply (plug_add k' [] _ _ _ F1 F2). exact I.
    - unfold dless. destruct (fmcompare k' (fst (up_e v)) (fst (ft_e (lo_t p)))) eqn:Ec; unfold fmcompare in Ec.
      + apply cascading_cut_hok; [constructor; [apply hok_set_mk, F2|constructor]|]. apply (plug_mark k' _ v q (up_mk v) (up_cnt v - 1)) in F1. exact F1.
      + apply (plug_add k' (v :: q) _ _ _ F1 F2). exact Ec. }
  (* the top *)
  unfold top_in in Ht. unfold ford. cbn [f_increase_at fh_roots fh_top]. split; [exact F3|].
  destruct (fh_top h) as [e|] eqn:Etop.
  2:{ exfalso. unfold f_entries in Ht. rewrite <- E in Ht. rewrite Ht in Hself. destruct Hself. }
  assert (Hmin : forall x, In x (fents (lo_forest p)) -> above k (fst e) (fst x)).
  { intros x Hx. apply (ford_min k h e); auto; unfold f_entries; rewrite <- E; assumption. }
  assert (Hroot : In e (rts (lo_forest p))) by (destruct Hf as [_ Hf]; rewrite Etop, <- E in Hf; apply Hf).
  unfold f_entries in Ht. rewrite <- E in Ht.
  assert (Hother : forall x, In x (fents (lo_forest p)) -> fst x <> i -> above k' (fst e) (fst x)).
  { intros x Hx Hne. pose proof (Hmin x Hx) as K. unfold above in *. rewrite <- (Hk (fst x)) by (try apply in_map; assumption).
    destruct (Z.eq_dec (fst e) i) as [E2|E2].
    - rewrite E2 in *. destruct (nltb (k (fst x)) (k' i)) eqn:E3; [|reflexivity]. destruct (nl_cotrans N L _ (k i) _ (T (i, u) Hself) E3); congruence.
    - rewrite <- Hk; [exact K|apply in_map, Ht|exact E2]. }
  assert (Hnew : forall x, In x (rts (f_increase_roots k' p)) -> In x (fents (lo_forest p))).
  { intros x Hx. apply rts_in in Hx. eapply Permutation_in; [apply f_increase_roots_ents|exact Hx]. }
  rewrite Ei. unfold dless. destruct (fmcompare k' (fst e) (fst (i, u))) eqn:Ec; unfold fmcompare in Ec; cbn [fst] in Ec.
  - (* the node is the new top: it is a root *)
    split.
    + unfold f_increase_roots. destruct (lo_ups p) as [|v q] eqn:Eu; [rewrite map_app, in_app_iff; right; left; rewrite Ei; reflexivity|].
      unfold dless. destruct (fmcompare k' (fst (up_e v)) (fst (ft_e (lo_t p)))) eqn:Ec2; unfold fmcompare in Ec2.
      * apply rts_cascade. left. left. destruct (lo_t p). exact Ei.
      * exfalso. rewrite Ei in Ec2. cbn [fst] in Ec2.
        assert (Hv : In (up_e v) (lo_rest p)) by (unfold lo_rest; rewrite Eu; cbn [uents]; rewrite !in_app_iff; cbn [In]; auto).
        assert (Hvf : In (up_e v) (fents (lo_forest p))) by (eapply Permutation_in; [symmetry; exact P|]; apply in_or_app; auto).
        assert (Hvi : fst (up_e v) <> i).
        { intros K. assert (Hn2 : NoDup (fs (ents (lo_t p) ++ lo_rest p))) by (exact (Permutation_NoDup (Permutation_map fst P) Hn)).
          destruct (ents_root (lo_t p)) as [l El]. rewrite El, Ei in Hn2. cbn in Hn2. inversion Hn2 as [|? ? Hx _]; subst. apply Hx. rewrite map_app, in_app_iff. right. apply in_map, Hv. }
        pose proof (Hother _ Hvf Hvi) as K. unfold above in K.
        destruct (nl_cotrans N L _ (k' (fst (up_e v))) _ (T' _ Hvf) Ec) as [K2|K2]; congruence.
    + intros x Hx. apply Hnew in Hx. cbn [fst]. destruct (Z.eq_dec (fst x) i) as [E2|E2]; [rewrite E2; apply (above_refl L)|].
      apply (above_trans L k' _ (fst e)); [apply T', Ht|apply (above_lt L); exact Ec|auto].
  - split; [apply rts_increase; exact Hroot|]. intros x Hx. apply Hnew in Hx. destruct (Z.eq_dec (fst x) i) as [E2|E2]; [rewrite E2; exact Ec|auto].
Qed.

Lemma f_update_ford k k' p i u h : lo_forest p = fh_roots h -> ft_e (lo_t p) = (i, u) -> NoDup (fs (f_entries h)) ->
  (forall x, In x (fs (f_entries h)) -> x <> i -> k x = k' x) -> tot k' (f_entries h) -> Forall (hok k) (fh_roots h) -> ford k' (f_update_at k' p h).
Proof.
  intros E Ei Hn Hk T' Hf. pose proof (f_update_at_ents k' p h E) as PU. unfold f_entries in *. rewrite <- E in *. destruct (rest_agree k k' p i u Ei Hn Hk) as [Hr Hc].
  assert (F1 : Forall (hok k') (plug (lo_l p ++ lo_r p) (lo_ups p))).
  { apply (forall_hok_ext k); [intros e He; apply Hr, lo_rest_sub, He|]. eapply plug_remove. exact Hf. }
  assert (F2 : Forall (hok k') (ft_ch (lo_t p))).
  { apply (forall_hok_ext k); [exact Hc|]. unfold lo_forest in Hf. apply plug_sub in Hf. apply Forall_app in Hf. destruct Hf as [_ K]. inversion K as [|? ? K1 _]; subst.
    destruct (lo_t p). eapply hok_ch. exact K1. }
  unfold f_update_at in *. destruct (lo_t p) as [e m c ch]. cbn [ft_ch] in F2. apply consolidated_ford.
  - intros x Hx. apply T'. eapply Permutation_in; [exact PU|]. eapply Permutation_in; [symmetry; apply consolidated_ents|exact Hx].
  - apply Forall_app. split; [|exact F2]. destruct (lo_ups p) as [|v q].
    + apply (plug_add k' [] _ _ _ F1); [apply hok_leaf|exact I].
    + constructor; [apply hok_leaf|]. apply plug_mark. exact F1.
Qed.

(** *** the laws *)
Lemma fperm (a b : list entry) : Permutation a b -> Permutation (fs a) (fs b).
Proof. apply Permutation_map. Qed.
Lemma tot_on k l : total_on k (fs l) <-> tot k l.
Proof.
  split; [intros H e He; apply H, in_map, He|]. intros H x Hx. apply in_map_iff in Hx. destruct Hx as [e [<- He]]. apply H, He.
Qed.
Lemma fwf1_val h i : fwf1 h -> In i (fs (f_entries h)) -> fval h i.
Proof. intros W Hi. apply in_map_iff in Hi. destruct Hi as [[j u] [<- Hu]]. exists u. split; [apply (fw_h _ W); exact Hu|exact Hu]. Qed.
Lemma fwf_empty : fwf1 (mkFh [] None [] 0).
Proof. constructor; [constructor; cbn; [constructor|intros e []|reflexivity]|constructor|intros i u []]. Qed.

Lemma f_pop_none k h : fwf h -> (f_pop k h = None <-> fs (f_entries h) = []).
Proof.
  intros W. pose proof (f_pop_spec k h W) as S. destruct (fh_top h) as [e|].
  - destruct S as [h2 [E2 [P _]]]. rewrite E2. split; [discriminate|]. intros K. apply map_eq_nil in K. rewrite K in P. apply Permutation_nil in P. discriminate.
  - destruct S as [E1 E2]. rewrite E1, E2. split; reflexivity.
Qed.

Definition FibBag : BagLaws (FibHeap (N := N)).
Proof.
  refine (Build_BagLaws N FibHeap (fwf : heap FibHeap -> Prop) (fval : heap FibHeap -> Z -> Prop) _ _ _ _ _ _); cbn [FibHeap heap hempty hpush hincrease hpop helems].
  - intros h i _ [u [_ Hi]]. apply in_map_iff. exists (i, u). auto.
  - split; [apply fwf_empty|reflexivity].
  - intros k i h W. split; [apply f_push_wf; exact W|]. rewrite f_push_ents. split; [reflexivity|]. split.
    + exists (fh_next h). split; [cbn; rewrite Z.eqb_refl; reflexivity|]. rewrite f_push_ents. left. reflexivity.
    + intros x [u [E Hx]]. destruct (Z.eq_dec i x) as [->|Hne].
      * exists (fh_next h). split; [cbn; rewrite Z.eqb_refl; reflexivity|]. rewrite f_push_ents. left. reflexivity.
      * exists u. split; [cbn; destruct (Z.eqb_spec i x); [congruence|exact E]|]. rewrite f_push_ents. right. exact Hx.
  - intros k i h W V. destruct (f_handle_spec h i W V) as [p [u [E1 [E2 E3]]]]. unfold f_increase. rewrite E1. eexists. split; [reflexivity|].
    pose proof (f_increase_at_ents k p h E2) as P. split; [|split].
    + eapply perm_fwf; [exact W|exact P|reflexivity|]. apply f_increase_at_top; [exact E2|apply (fw_top _ W)].
    + intros x. split; apply Permutation_in; [apply fperm, P|symmetry; apply fperm, P].
    + intros x [w [F1 Hx]]. exists w. split; [exact F1|]. eapply Permutation_in; [symmetry; exact P|exact Hx].
  - intros k h W. apply f_pop_none. exact W.
  - intros k h m h' W E. destruct (f_pop_wf k h m h' W E) as [A [B [u P]]]. split; [exact A|]. split; [exact (fperm _ _ P)|].
    intros x Hne [w [E1 Hx]]. exists w. rewrite B. split; [exact E1|]. apply (Permutation_in _ P) in Hx. destruct Hx as [K|K]; [congruence|exact K].
Defined.

Lemma f_push_wf1 k i h : fwf1 h -> ~ In i (fs (f_entries h)) -> fwf1 (f_push k i h).
Proof.
  intros [W Nd Hh] Hni. constructor.
  - apply f_push_wf. exact W.
  - rewrite f_push_ents. cbn [map fst]. constructor; assumption.
  - intros x u Hx. rewrite f_push_ents in Hx. cbn. destruct Hx as [E|Hx]; [injection E as <- <-; rewrite Z.eqb_refl; reflexivity|].
    destruct (Z.eqb_spec i x) as [->|_]; [|apply Hh; exact Hx]. exfalso. apply Hni. apply in_map_iff. exists (x, u). auto.
Qed.
Lemma f_pop_wf1 k h m h' : fwf1 h -> f_pop k h = Some (m, h') -> fwf1 h' /\ Permutation (fs (f_entries h)) (m :: fs (f_entries h')).
Proof.
  intros W E. destruct (f_pop_wf k h m h' (fw_wf _ W) E) as [A [B [u P]]]. split; [|exact (fperm _ _ P)]. constructor; [exact A| |].
  - pose proof (Permutation_NoDup (fperm _ _ P) (fw_nd _ W)) as K. cbn in K. inversion K; assumption.
  - intros i w Hi. rewrite B. apply (fw_h _ W). eapply Permutation_in; [symmetry; exact P|right; exact Hi].
Qed.
Lemma f_increase_wf1 k i h : fwf1 h -> In i (fs (f_entries h)) -> exists p u, f_increase k i h = Ok (f_increase_at k p h) /\
  lo_forest p = fh_roots h /\ ft_e (lo_t p) = (i, u) /\ fwf1 (f_increase_at k p h) /\ Permutation (f_entries (f_increase_at k p h)) (f_entries h).
Proof.
  intros W Hi. destruct (f_handle_spec h i (fw_wf _ W) (fwf1_val h i W Hi)) as [p [u [E1 [E2 E3]]]]. exists p, u. unfold f_increase. rewrite E1.
  pose proof (f_increase_at_ents k p h E2) as P. repeat split; auto; apply (perm_fwf1 h); auto; try (apply f_increase_at_top; [exact E2|apply (fw_top _ (fw_wf _ W))]).
Qed.
Lemma f_update_wf1 k i h : fwf1 h -> In i (fs (f_entries h)) -> exists p u, f_update k i h = Ok (f_update_at k p h) /\
  lo_forest p = fh_roots h /\ ft_e (lo_t p) = (i, u) /\ fwf1 (f_update_at k p h) /\ Permutation (f_entries (f_update_at k p h)) (f_entries h).
Proof.
  intros W Hi. destruct (f_handle_spec h i (fw_wf _ W) (fwf1_val h i W Hi)) as [p [u [E1 [E2 E3]]]]. exists p, u. unfold f_update. rewrite E1.
  assert (Ed : dless k (ft_e (lo_t p)) (i, 0) = false) by (rewrite E3; unfold dless, fmcompare; cbn [fst]; apply (nl_irrefl N L)).
  rewrite Ed. pose proof (f_update_at_ents k p h E2) as P. destruct (f_update_at_rest k p h) as [A [B C]].
  repeat split; auto; apply (perm_fwf1 h); auto.
Qed.

Definition FibLaws : HeapLaws (FibHeap (N := N)).
Proof.
  refine (Build_HeapLaws N FibHeap (fwf1 : heap FibHeap -> Prop)
    ((fun k h => tot k (f_entries h) -> ford k h) : (Z -> N) -> heap FibHeap -> Prop) _ _ _ _ _ _ _ _ _ _); cbn [FibHeap heap hempty hpush hincrease hpop helems].
  - split; [apply fwf_empty|reflexivity].
  - intros k i h W Hni. split; [apply f_push_wf1; assumption|reflexivity].
  - intros k i h W Hi. destruct (f_increase_wf1 k i h W Hi) as [p [u [E1 [_ [_ [W2 P]]]]]]. eexists. split; [exact E1|]. split; [exact W2|apply fperm, P].
  - intros k h W. apply f_pop_none, (fw_wf _ W).
  - intros k h m h' W E. exact (f_pop_wf1 k h m h' W E).
  - intros k _. split; [constructor|reflexivity].
  - intros k k' h W H Hk T'. assert (Hk2 : forall e, In e (f_entries h) -> k (fst e) = k' (fst e)) by (intros e He; apply Hk, in_map, He).
    destruct H as [A B]; [intros e He; rewrite Hk2 by exact He; apply T', He|]. split.
    + apply (forall_hok_ext k); [exact Hk2|exact A].
    + destruct (fh_top h) as [e|]; [|exact B]. destruct B as [B1 B2]. split; [exact B1|]. intros x Hx. specialize (B2 x Hx). unfold above in *.
      rewrite <- !Hk2; [exact B2| |]; apply rts_in; assumption.
  - intros k i h _ _ H T. rewrite f_push_ents in T. assert (T2 : tot k (f_entries h)) by (intros e He; apply T; right; exact He).
    apply f_push_ford; [exact T2|apply (T (i, fh_next h)); left; reflexivity|auto].
  - intros k k' i h h' W H Hi Nd Hk Hlow T E T'. destruct (f_increase_wf1 k' i h W Hi) as [p [u [E1 [E2 [E3 [W2 P]]]]]]. rewrite E in E1. injection E1 as ->.
    apply tot_on in T. apply (f_increase_ford k k' p i u); auto; [|apply (fw_top _ (fw_wf _ W))].
    intros e He. apply T'. eapply Permutation_in; [symmetry; exact P|exact He].
  - intros k h m h' W H E T. apply tot_on in T. specialize (H T). pose proof (f_pop_spec k h (fw_wf _ W)) as S. destruct (fh_top h) as [e|] eqn:Et; [|destruct S; congruence].
    destruct S as [h2 [E2 [P [_ [_ [_ Ho]]]]]]. rewrite E in E2. injection E2 as -> <-. split; [intros _; apply Ho; [exact T|apply H]|].
    intros x Hx. apply in_map_iff in Hx. destruct Hx as [y [<- Hy]]. exact (ford_min k h e T H Et y Hy).
Defined.
End F.

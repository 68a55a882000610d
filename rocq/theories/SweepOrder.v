(** SweepOrder.v - the order in which a sweep visits the cells (C29) and the
    sequence of sweep directions (C30): proofs. *)
From Coq Require Import Permutation Sorted.
From Coq Require FinFun.
From Verif Require Import Base BaseFacts Num Grid GridFacts Spec SweepModel.
Open Scope Z_scope.

(** ** directions as a binary counter *)
Definition bit (x : Z) : Z := if x =? 1 then 1 else 0.
Fixpoint code (incs : list Z) : Z :=
  match incs with [] => 0 | x :: r => bit x + 2 * code r end.


Lemma code_range n l : is_dir n l -> 0 <= code l < 2 ^ Z.of_nat n.
Proof.
  revert n. induction l as [|x r IH]; intros n [Hl HF]; cbn in Hl; subst n.
  - cbn. lia.
  - inversion HF; subst. specialize (IH (length r) (conj eq_refl H2)). rewrite Nat2Z.inj_succ, Z.pow_succ_r by lia.
    cbn [code]. unfold bit. destruct (x =? 1); lia.
Qed.

Lemma code_inj n a b : is_dir n a -> is_dir n b -> code a = code b -> a = b.
Proof.
  revert n b. induction a as [|x a IH]; intros n b [La Fa] [Lb Fb] E; cbn in La; subst n.
  - destruct b; [reflexivity|discriminate].
  - destruct b as [|y b]; [discriminate|]. cbn in Lb. injection Lb as Lb.
    inversion Fa as [|? ? Hx Fa']; inversion Fb as [|? ? Hy Fb']; subst. cbn [code] in E.
    assert (x = y /\ code a = code b) as [-> E'].
    { unfold bit in E. destruct (Z.eqb_spec x 1), (Z.eqb_spec y 1); lia. }
    f_equal. apply (IH (length a)); try split; auto.
Qed.

Lemma next_dir n l : is_dir n l -> is_dir n (next_incs l) /\
  code (next_incs l) = (code l + 1) mod 2 ^ Z.of_nat n.
Proof.
  revert n. induction l as [|x r IH]; intros n [Hl HF]; cbn in Hl; subst n.
  - split; [split; [reflexivity|constructor]|reflexivity].
  - inversion HF as [|? ? Hx Hr]; subst. destruct (IH (length r) (conj eq_refl Hr)) as [[A1 A2] A3].
    pose proof (code_range (length r) r (conj eq_refl Hr)) as Hc.
    rewrite Nat2Z.inj_succ, Z.pow_succ_r by lia.
    cbn [next_incs]. destruct (Z.leb_spec (x + 2) 1) as [L|L].
    + assert (x = -1) by lia. subst x. change (-1 + 2) with 1. split.
      * split; [reflexivity|]. constructor; auto.
      * cbn [code]. change (bit 1) with 1. change (bit (-1)) with 0. rewrite Z.mod_small by lia. lia.
    + assert (x = 1) by lia. subst x. split.
      * split; [cbn; f_equal; exact A1|]. constructor; auto.
      * cbn [code]. rewrite A3. change (bit (-1)) with 0. change (bit 1) with 1.
        replace (1 + 2 * code r + 1) with (2 * (code r + 1)) by lia.
        rewrite Z.mul_mod_distr_l by lia. lia.
Qed.

Fixpoint iter_dirs (k : nat) (l : list Z) : list Z :=
  match k with O => l | S k => next_incs (iter_dirs k l) end.

Lemma iter_dir n l k : is_dir n l -> is_dir n (iter_dirs k l) /\
  code (iter_dirs k l) = (code l + Z.of_nat k) mod 2 ^ Z.of_nat n.
Proof.
  intros Hl. induction k as [|k [A B]].
  - split; [exact Hl|]. cbn [iter_dirs]. rewrite Z.mod_small; [lia|]. pose proof (code_range n l Hl). lia.
  - cbn [iter_dirs]. destruct (next_dir n _ A) as [C D]. split; [exact C|]. rewrite D, B.
    rewrite Zplus_mod_idemp_l. f_equal. lia.
Qed.

Lemma iter_period n l k : is_dir n l -> iter_dirs (k + 2 ^ n) l = iter_dirs k l.
Proof.
  intros Hl. destruct (iter_dir n l (k + 2 ^ n) Hl) as [A B]. destruct (iter_dir n l k Hl) as [C D].
  apply (code_inj n); auto. rewrite B, D. rewrite Nat2Z.inj_add, Nat2Z.inj_pow. change (Z.of_nat 2) with 2.
  rewrite Z.add_assoc. rewrite <- (Z.mul_1_l (2 ^ Z.of_nat n)) at 1. apply Z.mod_add. lia.
Qed.

Lemma iter_dirs_distinct n l i j : is_dir n l -> (i < j < i + 2 ^ n)%nat -> iter_dirs i l <> iter_dirs j l.
Proof.
  intros Hl Hij E. destruct (iter_dir n l i Hl) as [_ A]. destruct (iter_dir n l j Hl) as [_ B].
  rewrite E, B in A. set (m := 2 ^ Z.of_nat n) in *. assert (Hm : 0 < m) by (unfold m; lia).
  assert (Hd : (Z.of_nat j - Z.of_nat i) mod m = 0).
  { replace (Z.of_nat j - Z.of_nat i) with ((code l + Z.of_nat j) - (code l + Z.of_nat i)) by lia.
    rewrite Zminus_mod, A, Z.sub_diag. apply Z.mod_0_l. lia. }
  rewrite Z.mod_small in Hd; [lia|]. split; [lia|]. destruct Hij as [_ H].
  unfold m. change 2 with (Z.of_nat 2). rewrite <- Nat2Z.inj_pow. lia.
Qed.

Lemma iter_dirs_all n l d k : is_dir n l -> is_dir n d ->
  exists i, (k <= i < k + 2 ^ n)%nat /\ iter_dirs i l = d.
Proof.
  intros Hl Hd. set (m := 2 ^ Z.of_nat n). assert (Hm : 0 < m) by (unfold m; lia).
  pose proof (code_range n d Hd) as Hc. fold m in Hc.
  exists (k + Z.to_nat ((code d - code l - Z.of_nat k) mod m))%nat.
  pose proof (Z.mod_pos_bound (code d - code l - Z.of_nat k) m Hm) as Hb. split.
  - split; [lia|]. assert (Z.of_nat (2 ^ n) = m) by (rewrite Nat2Z.inj_pow; reflexivity). lia.
  - destruct (iter_dir n l (k + Z.to_nat ((code d - code l - Z.of_nat k) mod m)) Hl) as [A B].
    apply (code_inj n); auto. rewrite B. fold m. rewrite Nat2Z.inj_add, Z2Nat.id by lia.
    rewrite Z.add_assoc, Zplus_mod_idemp_r.
    replace (code l + Z.of_nat k + (code d - code l - Z.of_nat k)) with (code d) by lia.
    apply Z.mod_small. exact Hc.
Qed.

(** ** visiting order *)
Fixpoint flat (levels : list (list Z * Z)) (it : Z) : list Z :=
  match levels with
  | [] => [it]
  | (is_, st) :: r => flat_map (fun i => flat r (it + i * st)) is_
  end.

Lemma foldM_flat_map' {A B S} (f : S -> B -> res S) (h : A -> list B) l s :
  foldM f (flat_map h l) s = foldM (fun s a => foldM f (h a) s) l s.
Proof.
  revert s; induction l as [|a l IH]; intros s; cbn; [reflexivity|].
  rewrite foldM_app. destruct (foldM f (h a) s); cbn; auto.
Qed.

Lemma recIter_flat {S} (f : S -> Z -> res S) levels it s :
  recIter f levels it s = foldM f (flat levels it) s.
Proof.
  revert it s; induction levels as [|[is_ st] r IH]; intros it s; cbn [recIter flat].
  - cbn. destruct (f s it); reflexivity.
  - rewrite foldM_flat_map'. apply foldM_ext. intros. apply IH.
Qed.

Lemma sweep_before_snoc is_ i cs c ds d :
  length cs = length is_ -> length ds = length is_ ->
  ((if i =? 1 then c < d else d < c) \/ (c = d /\ sweep_before is_ cs ds)) ->
  sweep_before (is_ ++ [i]) (cs ++ [c]) (ds ++ [d]).
Proof.
  revert cs ds; induction is_ as [|j is_ IH]; intros cs ds Hc Hd H.
  - destruct cs, ds; try discriminate. cbn in *. destruct H as [H|[_ []]]. right. split; [reflexivity|exact H].
  - destruct cs as [|x cs], ds as [|y ds]; try discriminate. cbn in Hc, Hd. cbn [app sweep_before].
    destruct H as [H|[-> [H|[-> H]]]].
    + left. apply IH; auto; lia.
    + left. apply IH; auto; lia.
    + right. split; [reflexivity|exact H].
Qed.

Definition ranges (incs dims : list Z) : list (list Z) :=
  map (fun '(i, d) => dim_range i d) (combine incs dims).

Fixpoint tuplesR (rs : list (list Z)) : list (list Z) :=
  match rs with
  | [] => [[]]
  | r :: rs => flat_map (fun c => map (fun cs => cs ++ [c]) (tuplesR rs)) r
  end.

(** the cells of a sweep, in order, as coordinates *)
Definition sweep_tuples (incs dims : list Z) : list (list Z) := tuplesR (rev (ranges incs dims)).
Definition sweep_order (incs dims : list Z) : list Z := map (cell_number dims) (sweep_tuples incs dims).

Lemma ranges_snoc is_ i ds k : length is_ = length ds ->
  ranges (is_ ++ [i]) (ds ++ [k]) = ranges is_ ds ++ [dim_range i k].
Proof.
  unfold ranges. revert ds; induction is_ as [|j is_ IH]; intros [|d ds] H; try discriminate; cbn; [reflexivity|].
  f_equal. apply IH. cbn in H. lia.
Qed.

Lemma sweep_tuples_snoc is_ i ds k : length is_ = length ds ->
  sweep_tuples (is_ ++ [i]) (ds ++ [k]) =
  flat_map (fun c => map (fun cs => cs ++ [c]) (sweep_tuples is_ ds)) (dim_range i k).
Proof. intros H. unfold sweep_tuples. rewrite ranges_snoc, rev_app_distr by exact H. reflexivity. Qed.


Lemma dim_range_eq i k : i = 1 \/ i = -1 -> 0 <= k ->
  dim_range i k = map (fun n => if i =? 1 then Z.of_nat n else k - 1 - Z.of_nat n) (seq 0 (Z.to_nat k)).
Proof.
  intros Hi Hk. unfold dim_range, sweep_bounds, loop_range. destruct Hi as [->| ->]; cbn [Z.eqb Pos.eqb].
  - replace (Z.to_nat (Z.abs (k - 0))) with (Z.to_nat k) by lia. apply map_ext. intros; lia.
  - replace (Z.to_nat (Z.abs (-1 - (k - 1)))) with (Z.to_nat k) by lia. apply map_ext. intros; lia.
Qed.

Lemma in_dim_range i k c : i = 1 \/ i = -1 -> 0 <= k -> (In c (dim_range i k) <-> 0 <= c < k).
Proof.
  intros Hi Hk. rewrite dim_range_eq by assumption. rewrite in_map_iff. split.
  - intros [n [<- Hn]]. apply in_seq in Hn. destruct (i =? 1); lia.
  - intros Hc. destruct (i =? 1).
    + exists (Z.to_nat c). rewrite in_seq. lia.
    + exists (Z.to_nat (k - 1 - c)). rewrite in_seq. lia.
Qed.

Lemma SSorted_map {A B} (R : B -> B -> Prop) (f : A -> B) l :
  StronglySorted (fun a b => R (f a) (f b)) l -> StronglySorted R (map f l).
Proof.
  intros H; induction H as [|a l _ IH HF]; cbn; [constructor|]. constructor; [exact IH|].
  apply Forall_map. exact HF.
Qed.

Lemma SSorted_impl {A} (R Q : A -> A -> Prop) l : (forall a b, In a l -> In b l -> R a b -> Q a b) ->
  StronglySorted R l -> StronglySorted Q l.
Proof.
  intros H S; induction S as [|a l _ IH HF]; constructor.
  - apply IH. intros; apply H; auto; right; auto.
  - rewrite Forall_forall in *. intros b Hb. apply H; [left; auto|right; auto|auto].
Qed.

Lemma seq_sorted a n : StronglySorted lt (seq a n).
Proof.
  revert a; induction n as [|n IH]; intros a; cbn; constructor; [apply IH|].
  apply Forall_forall. intros b Hb. apply in_seq in Hb. lia.
Qed.

Lemma dim_range_sorted i k : i = 1 \/ i = -1 -> 0 <= k ->
  StronglySorted (fun c d => if i =? 1 then c < d else d < c) (dim_range i k).
Proof.
  intros Hi Hk. rewrite dim_range_eq by assumption. apply SSorted_map.
  eapply SSorted_impl; [|apply seq_sorted]. intros a b _ _ H. destruct (i =? 1); lia.
Qed.

Lemma SSorted_app {A} (R : A -> A -> Prop) l1 l2 :
  StronglySorted R l1 -> StronglySorted R l2 -> (forall a b, In a l1 -> In b l2 -> R a b) ->
  StronglySorted R (l1 ++ l2).
Proof.
  intros S1 S2 H; induction S1 as [|a l _ IH HF]; cbn; [exact S2|]. constructor.
  - apply IH. intros; apply H; auto; right; auto.
  - apply Forall_app. split; [exact HF|]. apply Forall_forall. intros b Hb. apply H; [left; auto|auto].
Qed.

Lemma SSorted_flat_map {A B} (R : B -> B -> Prop) (h : A -> list B) (Q : A -> A -> Prop) l :
  StronglySorted Q l -> (forall a, In a l -> StronglySorted R (h a)) ->
  (forall a b x y, In a l -> In b l -> Q a b -> In x (h a) -> In y (h b) -> R x y) ->
  StronglySorted R (flat_map h l).
Proof.
  intros S; induction S as [|a l _ IH HF]; intros H1 H2; cbn; [constructor|].
  apply SSorted_app.
  - apply H1. left; auto.
  - apply IH; [intros; apply H1; right; auto|]. intros b c x y Hb Hc. apply H2; right; auto.
  - intros x y Hx Hy. apply in_flat_map in Hy. destruct Hy as [b [Hb Hy]].
    rewrite Forall_forall in HF. apply (H2 a b); auto; [left; auto|right; auto].
Qed.

(** membership *)
Lemma in_sweep_tuples incs dims cs : is_dir (length dims) incs -> proper dims ->
  (In cs (sweep_tuples incs dims) <-> in_box dims cs).
Proof.
  revert incs cs. induction dims as [|k ds IH] using rev_ind; intros incs cs [Hl HF] Hp.
  - destruct incs; [|discriminate]. cbn. split; [intros [<-|[]]; constructor|]. intros H; inversion H; auto.
  - rewrite app_length in Hl. cbn in Hl.
    destruct incs as [|i is_ _] using rev_ind; [cbn in Hl; lia|]. rewrite app_length in Hl. cbn in Hl.
    assert (Hl' : length is_ = length ds) by lia.
    apply Forall_app in HF. destruct HF as [HF Hi]. inversion Hi as [|? ? Hi1 _]; subst.
    apply Forall_app in Hp. destruct Hp as [Hp Hk]. inversion Hk as [|? ? Hk1 _]; subst.
    rewrite sweep_tuples_snoc by exact Hl'. rewrite in_flat_map. split.
    + intros [c [Hc H]]. apply in_map_iff in H. destruct H as [cs' [<- H]].
      apply in_dim_range in Hc; [|exact Hi1|lia].
      apply IH in H; [|split; auto|exact Hp]. apply Forall2_app; [exact H|]. constructor; [exact Hc|constructor].
    + intros H. apply in_box_app_inv in H. destruct H as [c1 [c2 [-> [H1 H2]]]].
      inversion H2 as [|? c ? ? Hc H3]; subst. inversion H3; subst.
      exists c. split; [apply in_dim_range; auto; lia|]. apply in_map_iff. exists c1. split; [reflexivity|].
      apply IH; [split; auto|exact Hp|exact H1].
Qed.

Lemma in_box_len dims cs : in_box dims cs -> length cs = length dims.
Proof. intros H. symmetry. apply in_box_length, H. Qed.

Lemma sweep_tuples_sorted incs dims : is_dir (length dims) incs -> proper dims ->
  StronglySorted (sweep_before incs) (sweep_tuples incs dims).
Proof.
  revert incs. induction dims as [|k ds IH] using rev_ind; intros incs [Hl HF] Hp.
  - destruct incs; [|discriminate]. cbn. repeat constructor.
  - rewrite app_length in Hl. cbn in Hl.
    destruct incs as [|i is_ _] using rev_ind; [cbn in Hl; lia|]. rewrite app_length in Hl. cbn in Hl.
    assert (Hl' : length is_ = length ds) by lia.
    apply Forall_app in HF. destruct HF as [HF Hi]. inversion Hi as [|? ? Hi1 _]; subst.
    apply Forall_app in Hp. destruct Hp as [Hp Hk]. inversion Hk as [|? ? Hk1 _]; subst.
    rewrite sweep_tuples_snoc by exact Hl'.
    assert (Hin : forall cs, In cs (sweep_tuples is_ ds) -> length cs = length is_).
    { intros cs H. apply in_sweep_tuples in H; [|split; auto|exact Hp]. apply in_box_len in H. lia. }
    eapply SSorted_flat_map; [apply dim_range_sorted; [exact Hi1|lia]| |].
    + intros c _. apply SSorted_map. eapply SSorted_impl; [|apply IH; [split; auto|exact Hp]].
      intros a b Ha Hb H. apply sweep_before_snoc; auto.
    + intros a b x y _ _ Hab Hx Hy. apply in_map_iff in Hx, Hy.
      destruct Hx as [x' [<- Hx]], Hy as [y' [<- Hy]]. apply sweep_before_snoc; auto.
Qed.

Lemma sweep_before_irrefl incs cs : ~ sweep_before incs cs cs.
Proof.
  revert cs; induction incs as [|i is_ IH]; intros [|c cs]; cbn; auto.
  intros [H|[_ H]]; [exact (IH _ H)|]. destruct (i =? 1); lia.
Qed.

Lemma SSorted_NoDup {A} (R : A -> A -> Prop) l : (forall a, ~ R a a) -> StronglySorted R l -> NoDup l.
Proof.
  intros Hi S; induction S as [|a l _ IH HF]; constructor; auto.
  intros H. rewrite Forall_forall in HF. exact (Hi a (HF a H)).
Qed.

Lemma NoDup_map_in {A B} (f : A -> B) l :
  (forall x y, In x l -> In y l -> f x = f y -> x = y) -> NoDup l -> NoDup (map f l).
Proof.
  intros H N; induction N as [|a l Ha N IH]; cbn; constructor.
  - intros H1. apply in_map_iff in H1. destruct H1 as [b [E Hb]]. apply H in E; [|right; auto|left; auto].
    subst. contradiction.
  - apply IH. intros; apply H; auto; right; auto.
Qed.

Lemma sweep_order_perm incs dims : is_dir (length dims) incs -> proper dims ->
  Permutation (sweep_order incs dims) (zseq (Z.to_nat (box_size dims))).
Proof.
  intros Hd Hp. apply NoDup_Permutation; [|apply NoDup_zseq|].
  - apply NoDup_map_in.
    + intros x y Hx Hy E. apply in_sweep_tuples in Hx, Hy; auto. eapply cell_number_inj; eauto.
    + eapply SSorted_NoDup; [apply sweep_before_irrefl|apply sweep_tuples_sorted; auto].
  - intros x. rewrite in_zseq. unfold sweep_order. rewrite in_map_iff. pose proof (box_size_pos dims Hp).
    rewrite Z2Nat.id by lia. split.
    + intros [cs [<- H1]]. apply in_sweep_tuples in H1; auto. apply cell_number_range, H1.
    + intros Hx. exists (coords_of dims x). split; [apply cell_number_coords_of; auto|].
      apply in_sweep_tuples; auto. apply coords_of_in_box; auto.
Qed.

(** ** the model's nested loops produce this order *)
Fixpoint strides (a : Z) (dims : list Z) : list Z :=
  match dims with [] => [] | k :: r => a :: strides (a * k) r end.

Lemma combine_strides {A} (l : list A) a dims : length l = length dims ->
  combine l (a :: pps a dims) = combine l (strides a dims).
Proof.
  revert l a; induction dims as [|k r IH]; intros [|x l] a H; try discriminate; [reflexivity|].
  cbn [combine strides]. f_equal. cbn [pps]. apply IH. cbn in H. lia.
Qed.

Lemma strides_snoc a ds k : strides a (ds ++ [k]) = strides a ds ++ [a * box_size ds].
Proof.
  revert a; induction ds as [|d ds IH]; intros a; cbn [app strides].
  - change (box_size []) with 1. rewrite Z.mul_1_r. reflexivity.
  - rewrite IH. cbn [app]. rewrite box_size_cons. do 3 f_equal. lia.
Qed.

Lemma length_strides a ds : length (strides a ds) = length ds.
Proof. revert a; induction ds; intros; cbn; auto. Qed.

Lemma combine_app {A B} (a1 a2 : list A) (b1 b2 : list B) : length a1 = length b1 ->
  combine (a1 ++ a2) (b1 ++ b2) = combine a1 b1 ++ combine a2 b2.
Proof. revert b1; induction a1 as [|x a1 IH]; intros [|y b1] H; try discriminate; cbn; [reflexivity|]. f_equal. apply IH. cbn in H; lia. Qed.

Lemma length_ranges incs dims : length incs = length dims -> length (ranges incs dims) = length dims.
Proof. intros H. unfold ranges. rewrite map_length, combine_length. lia. Qed.

Lemma map_flat_map {A B C} (f : B -> C) (h : A -> list B) l : map f (flat_map h l) = flat_map (fun a => map f (h a)) l.
Proof. induction l as [|a l IH]; cbn; [reflexivity|]. rewrite map_app, IH. reflexivity. Qed.

Lemma flat_levels incs dims it : length incs = length dims -> proper dims -> Forall (fun x => x = 1 \/ x = -1) incs ->
  flat (rev (combine (ranges incs dims) (strides 1 dims))) it = map (fun cs => it + cell_number dims cs) (sweep_tuples incs dims).
Proof.
  revert incs it. induction dims as [|k ds IH] using rev_ind; intros incs it Hl Hp HF.
  - destruct incs; [|discriminate]. cbn. rewrite Z.add_0_r. reflexivity.
  - rewrite app_length in Hl. cbn in Hl.
    destruct incs as [|i is_ _] using rev_ind; [cbn in Hl; lia|]. rewrite app_length in Hl. cbn in Hl.
    assert (Hl' : length is_ = length ds) by lia.
    apply Forall_app in HF. destruct HF as [HF Hi].
    apply Forall_app in Hp. destruct Hp as [Hp Hk].
    rewrite ranges_snoc, strides_snoc by exact Hl'. rewrite combine_app by (rewrite length_ranges, length_strides; auto).
    rewrite rev_app_distr. cbn [combine rev app flat]. rewrite sweep_tuples_snoc by exact Hl'.
    rewrite map_flat_map. apply flat_map_ext. intros c. rewrite IH by auto. rewrite map_map.
    apply map_ext_in. intros cs Hcs. apply in_sweep_tuples in Hcs; [|split; auto|exact Hp].
    rewrite cell_number_app by (apply in_box_length; exact Hcs). change (cell_number [k] [c]) with (c + k * 0). lia.
Qed.

Lemma sweep_levels_eq incs dims : length incs = length dims -> proper dims -> box_size dims < 4294967296 ->
  sweep_levels (mk_shape dims) incs = rev (combine (ranges incs dims) (strides 1 dims)).
Proof.
  intros Hl Hp Hlt. unfold sweep_levels. rewrite mk_shape_eq by assumption. cbn [s_dims s_d].
  rewrite combine_strides by (fold (ranges incs dims); rewrite length_ranges; auto). reflexivity.
Qed.

Lemma sweep_flat incs dims : is_dir (length dims) incs -> proper dims -> box_size dims < 4294967296 ->
  flat (sweep_levels (mk_shape dims) incs) 0 = sweep_order incs dims.
Proof.
  intros [Hl HF] Hp Hlt. rewrite sweep_levels_eq, flat_levels by auto. unfold sweep_order.
  apply map_ext. intros; lia.
Qed.

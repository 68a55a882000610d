(** TextFacts.v - lemmas about the text model. *)
From Coq Require Import Ascii String.
From Verif Require Import Base BaseFacts TextModel TextSpec.
Open Scope Z_scope.
Open Scope list_scope.

Lemma text_eqb_eq : forall a b, text_eqb a b = true <-> a = b.
Proof.
  induction a as [|x a IH]; destruct b as [|y b]; cbn; split; intros H; try discriminate; auto.
  - apply andb_true_iff in H. destruct H as [H1 H2]. apply Ascii.eqb_eq in H1. apply IH in H2. congruence.
  - injection H as -> ->. rewrite Ascii.eqb_refl. cbn. apply IH. reflexivity.
Qed.
Lemma text_eqb_refl : forall a, text_eqb a a = true.
Proof. intros a. apply text_eqb_eq. reflexivity. Qed.
Lemma text_eqb_neq : forall a b, text_eqb a b = false <-> a <> b.
Proof.
  intros a b. destruct (text_eqb a b) eqn:E; split; intros H; try discriminate; auto.
  - apply text_eqb_eq in E. contradiction.
  - intros E'. apply text_eqb_eq in E'. congruence.
Qed.

(** ** console *)
Lemma find_from_spec : forall l i flag,
  (find_from i l flag = -1 /\ forall k, nth_error l k <> Some flag) \/
  (exists k, find_from i l flag = i + Z.of_nat k /\ nth_error l k = Some flag /\ forall j, (j < k)%nat -> nth_error l j <> Some flag).
Proof.
  induction l as [|a r IH]; intros i flag; cbn [find_from].
  - left. split; auto. intros k. destruct k; discriminate.
  - destruct (text_eqb a flag) eqn:E.
    + apply text_eqb_eq in E. subst a. right. exists O. split; [lia|]. split; [reflexivity|]. intros j Hj. lia.
    + apply text_eqb_neq in E. destruct (IH (i + 1) flag) as [[H1 H2]|[k [H1 [H2 H3]]]].
      * left. split; auto. intros [|k]; cbn; [congruence|apply H2].
      * right. exists (S k). split; [lia|]. split; [exact H2|]. intros [|j] Hj; cbn; [congruence|apply H3; lia].
Qed.

Lemma findArguments_spec : forall argv flag,
  (findArguments argv flag = -1 /\ nowhere argv flag) \/
  (exists i, findArguments argv flag = i /\ first_at argv flag i).
Proof.
  intros [|a r] flag.
  - left. split; [reflexivity|]. intros j Hj. destruct (Z.to_nat j); discriminate.
  - cbn [findArguments]. destruct (find_from_spec r 1 flag) as [[H1 H2]|[k [H1 [H2 H3]]]].
    + left. split; auto. intros j Hj. replace (Z.to_nat j) with (S (Z.to_nat (j - 1))) by lia. cbn. apply H2.
    + right. exists (1 + Z.of_nat k). split; auto. split; [lia|]. split.
      * replace (Z.to_nat (1 + Z.of_nat k)) with (S k) by lia. exact H2.
      * intros j Hj. replace (Z.to_nat j) with (S (Z.to_nat (j - 1))) by lia. cbn. apply H3. lia.
Qed.

Lemma first_at_range : forall argv flag i, first_at argv flag i -> 1 <= i < Z.of_nat (List.length argv).
Proof. intros argv flag i [H1 [H2 _]]. split; auto. assert (Z.to_nat i < List.length argv)%nat by (apply nth_error_Some; congruence). lia. Qed.

Lemma first_at_find : forall argv flag i, first_at argv flag i -> findArguments argv flag = i.
Proof.
  intros argv flag i H. destruct (findArguments_spec argv flag) as [[_ Hn]|[j [E Hj]]].
  - destruct H as [H1 [H2 _]]. exfalso. apply (Hn i H1 H2).
  - rewrite E. destruct H as [H1 [H2 H3]], Hj as [J1 [J2 J3]].
    destruct (Z.lt_total i j) as [L|[L|L]]; auto; exfalso; [apply (J3 i); auto|apply (H3 j); auto].
Qed.
Lemma nowhere_find : forall argv flag, nowhere argv flag -> findArguments argv flag = -1.
Proof.
  intros argv flag H. destruct (findArguments_spec argv flag) as [[E _]|[j [E [J1 [J2 _]]]]]; auto. exfalso. apply (H j J1 J2).
Qed.

Lemma vget_nth : forall {A} (l : list A) n x, nth_error l n = Some x -> vget l (Z.of_nat n) = Ok x.
Proof. intros A l n x H. unfold vget. destruct (Z.leb_spec 0 (Z.of_nat n)); [|lia]. rewrite Nat2Z.id, H. reflexivity. Qed.
Lemma vget_end : forall {A} (l : list A) n, nth_error l n = None -> vget l (Z.of_nat n) = Fail UB.
Proof. intros A l n H. unfold vget. destruct (0 <=? Z.of_nat n); [|reflexivity]. rewrite Nat2Z.id, H. reflexivity. Qed.

Lemma skipn_nth : forall {A} (l : list A) n x r, skipn n l = x :: r -> nth_error l n = Some x /\ skipn (S n) l = r.
Proof.
  induction l as [|y l IH]; intros [|n] x r H; cbn in *; try discriminate.
  - injection H as -> ->. auto.
  - apply IH in H. destruct H. split; auto.
Qed.

Lemma vec_loop_spec : forall {A} (conv : text -> A) argv n fuel vals t r,
  skipn n argv = t :: r -> (List.length (t :: r) <= fuel)%nat ->
  exists l, until_dash l (t :: r) /\ vec_loop fuel conv argv (Z.of_nat n) vals = Ok (vals ++ map conv l).
Proof.
  intros A conv argv n fuel. revert n. induction fuel as [|fuel IH]; intros n vals t r Hs Hf; [cbn in Hf; lia|].
  destruct (skipn_nth _ _ _ _ Hs) as [Hn Hs']. cbn [vec_loop]. unfold argAt. rewrite (vget_nth _ _ _ Hn). cbn [bind].
  assert (Hl : Z.of_nat (List.length argv) = Z.of_nat n + 1 + Z.of_nat (List.length r)).
  { pose proof (f_equal (@List.length _) Hs) as K. rewrite skipn_length in K. cbn in K. lia. }
  destruct (match t with c :: _ => Ascii.eqb c "-" | [] => false end) eqn:Ed.
  - cbv iota beta. rewrite Z.ltb_irrefl. exists []. split.
    + split; [constructor|]. exists (t :: r). split; auto. right. exists t, r. split; auto.
      destruct t as [|c t']; [discriminate|]. apply Ascii.eqb_eq in Ed. subst c. exists t'. reflexivity.
    + cbn [map]. rewrite app_nil_r. reflexivity.
  - cbv iota beta. assert (Hnd : ~ dashed t) by (intros [r' ->]; cbn in Ed; discriminate).
    destruct r as [|t2 r2].
    + cbn in Hl. destruct (Z.ltb_spec (Z.of_nat n + 1) (Z.of_nat (List.length argv))); [lia|].
      exists [t]. split; [|reflexivity]. split; [constructor; auto|]. exists []. split; auto.
    + cbn [List.length] in Hl. destruct (Z.ltb_spec (Z.of_nat n + 1) (Z.of_nat (List.length argv))); [|lia].
      replace (Z.of_nat n + 1) with (Z.of_nat (S n)) by lia.
      destruct (IH (S n) (vals ++ [conv t]) t2 r2 Hs') as [l [[Hl1 [r' [Hl2 Hl3]]] He]]; [cbn in *; lia|].
      exists (t :: l). split.
      * split; [constructor; auto|]. exists r'. split; auto. cbn. rewrite <- Hl2. reflexivity.
      * rewrite He. rewrite <- app_assoc. reflexivity.
Qed.

(** ** getline and split *)
Lemma cut_join : forall a rem, ~ In comma a ->
  cut comma (join (a :: rem)) = (a, match rem with [] => None | _ => Some (join rem) end).
Proof.
  induction a as [|c a IH]; intros rem Hn.
  - destruct rem as [|b rem]; cbn [join app cut]; [reflexivity|]. rewrite Ascii.eqb_refl. reflexivity.
  - assert (Hc : Ascii.eqb c comma = false).
    { apply Ascii.eqb_neq. intros E. apply Hn. left. auto. }
    assert (Hj : join ((c :: a) :: rem) = c :: join (a :: rem)) by (destruct rem; reflexivity).
    rewrite Hj. cbn [cut]. rewrite Hc, IH by (intros K; apply Hn; right; exact K). reflexivity.
Qed.

Definition src (rem : list text) : sstream := match rem with [] => mkSs [] true | _ => mkSs (join rem) false end.

Lemma getline_src : forall a rem item, ~ In comma a -> getline comma (src (a :: rem)) item = (src rem, a).
Proof.
  intros a rem item Hn. unfold getline, src. cbn [ss_eof ss_rest]. rewrite cut_join by auto. destruct rem; reflexivity.
Qed.
Lemma getline_done : forall item, getline comma (src []) item = (src [], item).
Proof. reflexivity. Qed.

Lemma total_nonneg : forall fs, 0 <= total fs.
Proof. induction fs; cbn; lia. Qed.
Lemma total_app : forall a b, total (a ++ b) = total a + total b.
Proof. induction a; intros b; cbn; [reflexivity|rewrite IHa; lia]. Qed.

Lemma join_len : forall fs, fs <> [] -> len (join fs) = total fs + Z.of_nat (List.length fs) - 1.
Proof.
  unfold len. induction fs as [|a [|b r] IH]; intros H; [contradiction|cbn; lia|].
  change (join (a :: b :: r)) with (a ++ comma :: join (b :: r)). rewrite app_length. cbn [List.length].
  specialize (IH ltac:(discriminate)). change (total (a :: b :: r)) with (Z.of_nat (List.length a) + total (b :: r)). cbn [List.length] in IH |- *. lia.
Qed.

Lemma u64_id : forall z, 0 <= z < 18446744073709551616 -> u64 z = z.
Proof. intros z H. unfold u64. apply Z.mod_small. exact H. Qed.

(** the part of the loop in which the stream still has fields *)
Lemma split_loop_fields : forall rem fuel size pos item elems,
  Forall (fun f => ~ In comma f) rem -> 0 <= pos -> pos + total rem < 18446744073709551616 ->
  (List.length rem <= fuel)%nat ->
  (exists j, (j <= List.length rem)%nat /\ split_loop fuel size pos (src rem) item elems = Ok (elems ++ firstn j rem) /\
     size <= pos + total (firstn j rem) /\ forall i, (i < j)%nat -> pos + total (firstn i rem) < size) \/
  (pos + total rem < size /\
   split_loop fuel size pos (src rem) item elems =
   split_loop (fuel - List.length rem) size (pos + total rem) (src []) (last rem item) (elems ++ rem)).
Proof.
  induction rem as [|a rem IH]; intros fuel size pos item elems Hnc Hp Hb Hf.
  - destruct (Z_lt_le_dec pos size) as [L|L].
    + right. cbn [total last List.length]. rewrite Nat.sub_0_r, app_nil_r. replace (pos + 0) with pos by lia. auto.
    + left. exists O. cbn [firstn total List.length]. rewrite app_nil_r. split; [lia|]. split; [|split; [lia|intros i Hi; lia]].
      destruct fuel; cbn [split_loop]; (destruct (Z.ltb_spec pos size); [lia|reflexivity]).
  - cbn [total] in Hb. pose proof (total_nonneg rem) as Ht. inversion Hnc as [|? ? Ha Hrem]; subst.
    destruct (Z_lt_le_dec pos size) as [L|L].
    + destruct fuel as [|fuel]; [cbn in Hf; lia|]. cbn [split_loop]. destruct (Z.ltb_spec pos size); [|lia].
      rewrite getline_src by auto. cbv iota beta. unfold len. rewrite u64_id by lia.
      destruct (IH fuel size (pos + Z.of_nat (List.length a)) a (elems ++ [a]) Hrem ltac:(lia) ltac:(lia) ltac:(cbn in Hf; lia))
        as [[j [Hj [E [H1 H2]]]]|[H1 E]].
      * left. exists (S j). split; [cbn; lia|]. split; [etransitivity; [exact E|]; rewrite <- app_assoc; reflexivity|]. cbn [firstn total]. split; [lia|].
        intros [|i] Hi; cbn [firstn total]; [lia|]. specialize (H2 i ltac:(lia)). lia.
      * right. cbn [total]. split; [lia|]. etransitivity; [exact E|]. rewrite <- app_assoc. cbn [List.length Nat.sub app].
        replace (pos + Z.of_nat (List.length a) + total rem) with (pos + (Z.of_nat (List.length a) + total rem)) by lia.
        f_equal. destruct rem as [|t rem]; [reflexivity|]. change (last (a :: t :: rem) item) with (last (t :: rem) item). clear. revert t. induction rem as [|x rem IH]; intros t; [reflexivity|]. exact (IH x).
    + left. exists O. cbn [firstn total]. rewrite app_nil_r. split; [lia|]. split; [|split; [lia|intros i Hi; lia]].
      destruct fuel; cbn [split_loop]; (destruct (Z.ltb_spec pos size); [lia|reflexivity]).
Qed.

(** the part of the loop behind the end of the stream *)
Lemma split_loop_done_empty : forall fuel size pos elems, 0 <= pos < size -> size < 18446744073709551616 ->
  split_loop fuel size pos (src []) [] elems = Fail OutOfFuel.
Proof.
  induction fuel as [|fuel IH]; intros size pos elems Hp Hb; cbn [split_loop]; (destruct (Z.ltb_spec pos size); [|lia]); [reflexivity|].
  rewrite getline_done. cbv iota beta. unfold len. cbn [List.length]. rewrite u64_id by lia. apply IH; lia.
Qed.

Lemma split_loop_done : forall fuel size pos item elems,
  item <> [] -> 0 <= pos -> pos <= size -> size + len item < 18446744073709551616 -> (Z.to_nat (size - pos) <= fuel)%nat ->
  exists m, split_loop fuel size pos (src []) item elems = Ok (elems ++ repeat item m) /\
    size <= pos + Z.of_nat m * len item < size + len item.
Proof.
  intros fuel. induction fuel as [|fuel IH]; intros size pos item elems Hi Hp Hle Hb Hf.
  - exists O. assert (pos = size) by lia. subst. cbn [split_loop]. rewrite Z.ltb_irrefl. cbn [repeat]. rewrite app_nil_r. split; [reflexivity|].
    unfold len in *. destruct item; [contradiction|cbn [List.length]; lia].
  - assert (Hl : 1 <= len item) by (unfold len; destruct item; [contradiction|cbn [List.length]; lia]).
    destruct (Z_lt_le_dec pos size) as [L|L].
    + cbn [split_loop]. destruct (Z.ltb_spec pos size); [|lia]. rewrite getline_done. cbv iota beta. rewrite u64_id by lia.
      destruct (Z_lt_le_dec (pos + len item) size) as [L2|L2].
      * destruct (IH size (pos + len item) item (elems ++ [item]) Hi ltac:(lia) ltac:(lia) Hb ltac:(lia)) as [m [E Hm]].
        exists (S m). split; [etransitivity; [exact E|]; rewrite <- app_assoc; reflexivity|]. lia.
      * exists 1%nat. split; [|lia]. destruct fuel; cbn [split_loop]; (destruct (Z.ltb_spec (pos + len item) size); [lia|reflexivity]).
    + exists O. assert (pos = size) by lia. subst. cbn [split_loop]. rewrite Z.ltb_irrefl. cbn [repeat]. rewrite app_nil_r. split; [reflexivity|lia].
Qed.

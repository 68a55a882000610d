(** ScriptFacts.v - lemmas about the model of the Matlab scripts. *)
From Coq Require Import Ascii String.
From Verif Require Import Base BaseFacts Num Grid GridFacts GridMore GridUpd Spec Obs NumLaws TextModel TextFacts IOModel IOFacts ScriptModel.
Open Scope Z_scope.
Open Scope list_scope.

Definition spaces (t : text) : Prop := Forall (fun c => is_space c = true) t.

(** ** words *)
Lemma words_space sp r : spaces sp -> words (sp ++ r) = words r.
Proof. induction 1 as [|c sp Hc _ IH]; [reflexivity|]. cbn [app words]. rewrite Hc. exact IH. Qed.
Lemma words_tok t r : is_token t -> starts_space r -> words (t ++ r) = t :: words r.
Proof.
  intros [Hne Ht] Hr. induction Ht as [|c t Hc Ht IH]; [contradiction|]. cbn [app words]. rewrite Hc.
  destruct t as [|c' t].
  - cbn [app]. destruct r as [|c' r]; [reflexivity|]. cbn in Hr. rewrite Hr. reflexivity.
  - cbn [app] in *. inversion Ht as [|? ? Hc' _]; subst. rewrite Hc'. rewrite IH by discriminate. reflexivity.
Qed.
Lemma words_cons sp t r : spaces sp -> is_token t -> starts_space r -> words (sp ++ t ++ r) = t :: words r.
Proof. intros H1 H2 H3. rewrite words_space by exact H1. apply words_tok; auto. Qed.

(** entries, each beginning with a space: the space, a token, then spaces *)
Lemma words_entries (A : Type) (f : A -> text) (pre post : text) (l : list A) r : pre <> [] -> spaces pre -> spaces post ->
  (forall x, In x l -> is_token (f x)) -> starts_space r ->
  words (flat_map (fun x => pre ++ f x ++ post) l ++ r) = map f l ++ words r.
Proof.
  intros Hpn Hp Hq. induction l as [|x l IH]; intros Hf Hr; [reflexivity|]. cbn [flat_map map app]. rewrite <- !app_assoc.
  rewrite words_cons; [|exact Hp|apply Hf; left; reflexivity|].
  - f_equal. rewrite words_space by exact Hq. apply IH; [|exact Hr]. intros y Hy. apply Hf. right. exact Hy.
  - destruct post as [|c post]; [|inversion Hq; assumption]. cbn [app]. destruct l as [|y l]; [exact Hr|].
    cbn [flat_map]. destruct pre as [|c pre]; [contradiction|]. inversion Hp; assumption.
Qed.
(** entries, each ended by spaces *)
Lemma words_ended (A : Type) (f : A -> text) (post : text) (l : list A) r : post <> [] -> spaces post ->
  (forall x, In x l -> is_token (f x)) ->
  words (flat_map (fun x => f x ++ post) l ++ r) = map f l ++ words r.
Proof.
  intros Hpn Hq. induction l as [|x l IH]; intros Hf; [reflexivity|]. cbn [flat_map map app]. rewrite <- !app_assoc.
  rewrite words_tok; [|apply Hf; left; reflexivity|destruct post; [contradiction|inversion Hq; assumption]].
  rewrite words_space by exact Hq. rewrite IH; [reflexivity|]. intros y Hy. apply Hf. right. exact Hy.
Qed.

Lemma scanned_all (T : Type) (read : text -> option T) ws : (forall w, In w ws -> read w <> None) -> scanned read ws = ws.
Proof.
  induction ws as [|w ws IH]; intros H; [reflexivity|]. cbn [scanned]. destruct (read w) eqn:E; [|exfalso; exact (H w (or_introl eq_refl) E)].
  rewrite IH; [reflexivity|]. intros x Hx. apply H. right. exact Hx.
Qed.
Lemma scanned_stop (T : Type) (read : text -> option T) ws bad r : (forall w, In w ws -> read w <> None) -> read bad = None -> scanned read (ws ++ bad :: r) = ws.
Proof.
  induction ws as [|w ws IH]; intros H Hb; cbn [app scanned]; [rewrite Hb; reflexivity|]. destruct (read w) eqn:E; [|exfalso; exact (H w (or_introl eq_refl) E)].
  rewrite IH; [reflexivity| |exact Hb]. intros x Hx. apply H. right. exact Hx.
Qed.

Lemma cut_line (l r : text) : ~ In newline l -> cut newline (l ++ newline :: r) = (l, Some r).
Proof.
  induction l as [|c l IH]; intros Hf; cbn [app cut]; [rewrite Ascii.eqb_refl; reflexivity|].
  destruct (Ascii.eqb_spec c newline) as [->|]; [exfalso; apply Hf; left; reflexivity|]. rewrite IH; [reflexivity|]. intros K. apply Hf. right. exact K.
Qed.
Lemma fgetl_line l r : ~ In newline l -> fgetl (l ++ newline :: r) = (l, r).
Proof. intros H. unfold fgetl. rewrite cut_line by exact H. reflexivity. Qed.

(** ** extraction from a stream, by words *)
Lemma words_skip t : words (skip_space t) = words t.
Proof. induction t as [|c t IH]; [reflexivity|]. cbn [skip_space words]. destruct (is_space c) eqn:E; [exact IH|]. cbn [words]. rewrite E. reflexivity. Qed.
Lemma skip_space_head t : match skip_space t with [] => True | c :: _ => is_space c = false end.
Proof. induction t as [|c t IH]; [exact Logic.I|]. cbn [skip_space]. destruct (is_space c) eqn:E; [exact IH|exact E]. Qed.
Lemma words_take c t : is_space c = false -> words (c :: t) = fst (take_token (c :: t)) :: words (snd (take_token (c :: t))).
Proof.
  revert c. induction t as [|c' t IH]; intros c Hc.
  - cbn. rewrite Hc. reflexivity.
  - assert (W : words (c :: c' :: t) = if is_space c' then [c] :: words (c' :: t) else match words (c' :: t) with w :: ws => (c :: w) :: ws | [] => [[c]] end).
    { cbn [words]. rewrite Hc. reflexivity. }
    rewrite W. clear W. destruct (is_space c') eqn:E'.
    + cbn [take_token]. rewrite Hc, E'. reflexivity.
    + rewrite (IH c' E'). cbn [take_token]. rewrite Hc, E'. destruct (take_token t) as [a b]. reflexivity.
Qed.
Lemma words_nil t : words t = [] -> skip_space t = [].
Proof.
  intros H. rewrite <- words_skip in H. pose proof (skip_space_head t) as K. destruct (skip_space t) as [|c r]; [reflexivity|]. rewrite words_take in H by exact K. discriminate.
Qed.

Definition stream_of (ws : list text) (s : istream) : Prop := words (in_rest s) = ws /\ (ws <> [] -> in_good s = true).

Lemma extract_word (T : Type) (read : text -> option T) zero s v w ws x : stream_of (w :: ws) s -> read w = Some x ->
  exists s', extract read zero s v = (s', Some x) /\ stream_of ws s'.
Proof.
  intros [Hw Hg] Hr. unfold extract. rewrite Hg by discriminate. pose proof (skip_space_head (in_rest s)) as K. rewrite <- words_skip in Hw.
  destruct (skip_space (in_rest s)) as [|c r]; [discriminate|]. rewrite words_take in Hw by exact K. destruct (take_token (c :: r)) as [tok rest]. cbn [fst snd] in Hw.
  injection Hw as -> Hw. rewrite Hr. eexists. split; [reflexivity|]. split; [exact Hw|]. cbn [in_good]. destruct rest; [intros Hne; subst ws; contradiction|reflexivity].
Qed.
Lemma read_dims_words : forall dims s ws, Forall (fun d => 0 <= d < 4294967296) dims -> stream_of (map showU dims ++ ws) s ->
  exists s', read_dims (List.length dims) s = (s', map Some dims) /\ stream_of ws s'.
Proof.
  induction dims as [|d dims IH]; intros s ws Hd Hs; [exists s; split; [reflexivity|exact Hs]|]. inversion Hd as [|? ? H1 H2]; subst. cbn [map app] in Hs.
  destruct (extract_word _ (readU 4294967296) 0 s None _ _ d Hs (readU_showU _ _ H1)) as [s1 [E1 Hs1]]. destruct (IH s1 ws H2 Hs1) as [s2 [E2 Hs2]].
  exists s2. cbn [List.length read_dims map]. rewrite E1, E2. split; [reflexivity|exact Hs2].
Qed.
Section F.
Context {N : Num} (readD : text -> option N).
Lemma load_cells_words : forall toks vals i s occ go, Forall2 (fun t v => readD t = Some v) toks vals -> stream_of toks s ->
  load_cells readD (List.length toks) i s occ go = foldM load_cell (indexed i vals) go.
Proof.
  intros toks vals i s occ go H. revert i s occ go. induction H as [|t v toks vals Ht _ IH]; intros i s occ go Hs; [reflexivity|].
  cbn [List.length load_cells indexed foldM]. destruct (extract_word _ readD n0 s occ _ _ v Hs Ht) as [s1 [E1 Hs1]]. rewrite E1. cbn [use bind].
  destruct (load_cell go (i, v)) as [go1|]; cbn [bind]; [apply IH; exact Hs1|reflexivity].
Qed.

(** loadMapFromText depends on the words of the file after the first line *)
Lemma load_words : forall first rest leaft leaf dims toks vals (g : grid N),
  ~ In newline first -> words rest = leaft :: showU (Z.of_nat (List.length dims)) :: map showU dims ++ toks ->
  readD leaft = Some leaf -> Forall2 (fun t v => readD t = Some v) toks vals ->
  proper dims -> box_size dims < 4294967296 -> Z.of_nat (List.length dims) < 4294967296 -> Z.of_nat (List.length toks) = box_size dims ->
  loadMapFromText readD (List.length dims) (Some (first ++ newline :: rest)) g =
  '(g2, obs) <- foldM load_cell (indexed 0 vals) (setLeafSize (resize g dims) leaf, []) ;; Ok (1, setOccupiedCells g2 obs).
Proof.
  intros first rest leaft leaf dims toks vals g Hf Hw Hl Hv Hp Hlt Hnd Hlen. unfold loadMapFromText.
  assert (Es : skip_line (mkIn (first ++ newline :: rest) true) = mkIn rest true) by (unfold skip_line; cbn [in_good in_rest]; rewrite cut_line by exact Hf; reflexivity).
  rewrite Es. assert (Hs : stream_of (leaft :: showU (Z.of_nat (List.length dims)) :: map showU dims ++ toks) (mkIn rest true)) by (split; [exact Hw|reflexivity]).
  destruct (extract_word _ readD n0 _ None _ _ leaf Hs Hl) as [s1 [E1 Hs1]]. rewrite E1.
  destruct (extract_word _ (readU 18446744073709551616) 0 _ None _ _ (Z.of_nat (List.length dims)) Hs1) as [s2 [E2 Hs2]]; [apply readU_showU; lia|]. rewrite E2.
  cbn [use bind]. rewrite Z.eqb_refl. cbn [negb].
  assert (Hdr : Forall (fun d => 0 <= d < 4294967296) dims).
  { clear - Hp Hlt. induction Hp as [|d r Hd Hr IH]; [constructor|]. pose proof (box_size_pos r Hr). rewrite box_size_cons in Hlt. constructor; [nia|]. apply IH. nia. }
  destruct (read_dims_words dims s2 toks Hdr Hs2) as [s3 [E3 Hs3]]. rewrite E3.
  replace (mapM use (map Some dims)) with (@Ok (list Z) dims) by (clear; induction dims as [|d r IH]; cbn [map mapM use bind]; [reflexivity|rewrite <- IH; reflexivity]).
  cbn [bind]. replace (gsize (setLeafSize (resize g dims) leaf)) with (box_size dims) by (unfold gsize; cbn; rewrite mk_shape_eq by auto; reflexivity).
  replace (Z.to_nat (box_size dims)) with (List.length toks) by lia. rewrite (load_cells_words toks vals) by auto. reflexivity.
Qed.
End F.

(** ** arrays *)
Lemma m_offset_cell : forall dims cs, in_box dims cs -> m_offset dims (map (fun c => c + 1) cs) = Some (cell_number dims cs).
Proof.
  induction dims as [|d dims IH]; intros cs H; inversion H as [|? c ? cs' Hc Hr]; subst; [reflexivity|]. cbn [map m_offset].
  rewrite (IH cs' Hr). destruct (Z.leb_spec 1 (c + 1)); [|lia]. destruct (Z.leb_spec (c + 1) d); [|lia]. cbn [andb]. f_equal. cbn [cell_number]. lia.
Qed.
Lemma m_at_cell (T : Type) dims (data : list T) cs : in_box dims cs ->
  m_at (mkM dims data) (map (fun c => c + 1) cs) = nth_error data (Z.to_nat (cell_number dims cs)).
Proof. intros H. unfold m_at. cbn [m_size m_data]. rewrite m_offset_cell by exact H. reflexivity. Qed.

Lemma mapM_must (A B : Type) (f : A -> option B) l m : Forall2 (fun a b => f a = Some b) l m -> mapM (fun a => must (f a)) l = Ok m.
Proof. induction 1 as [|a b l m H _ IH]; [reflexivity|]. cbn [mapM]. rewrite H. cbn [must bind]. rewrite IH. reflexivity. Qed.

Lemma nth_grid (B : Type) (f : Z -> Z -> B) c r i j : (i < c)%nat -> (j < r)%nat ->
  nth_error (flat_map (fun y => map (fun x => f x y) (zseq c)) (zseq r)) (i + c * j) = Some (f (Z.of_nat i) (Z.of_nat j)).
Proof.
  intros Hi Hj. unfold zseq. rewrite flat_map_concat_map, map_map.
  assert (K : forall n s jj, (jj < n)%nat ->
    nth_error (List.concat (map (fun y => map (fun x => f x (Z.of_nat y)) (map Z.of_nat (seq 0 c))) (seq s n))) (i + c * jj) = Some (f (Z.of_nat i) (Z.of_nat (s + jj)))).
  { induction n as [|n IH]; intros s jj Hjj; [lia|]. cbn [seq map List.concat]. destruct jj as [|jj].
    - rewrite Nat.mul_0_r, Nat.add_0_r, nth_error_app1 by (rewrite !map_length, seq_length; exact Hi). rewrite map_map, nth_error_map.
      rewrite (nth_error_nth' (seq 0 c) O) by (rewrite seq_length; exact Hi). rewrite seq_nth by exact Hi. cbn [option_map]. rewrite Nat.add_0_r. reflexivity.
    - rewrite nth_error_app2 by (rewrite !map_length, seq_length; nia). rewrite !map_length, seq_length.
      replace (i + c * S jj - c)%nat with (i + c * jj)%nat by nia. rewrite IH by lia. do 3 f_equal. lia. }
  rewrite K by exact Hj. reflexivity.
Qed.

(** the transposed matrix *)
Lemma m_transpose_ok (T : Type) (r c : Z) (data : list T) : 1 <= r -> 1 <= c -> Z.of_nat (List.length data) = r * c ->
  exists m, m_transpose (mkM [r; c] data) = Ok m /\ m_size m = [c; r] /\ Z.of_nat (List.length (m_data m)) = r * c /\
    forall i j, 1 <= i <= r -> 1 <= j <= c -> m_at m [j; i] = m_at (mkM [r; c] data) [i; j].
Proof.
  intros Hr Hc Hl. unfold m_transpose. cbn [m_size].
  set (F := fun x y => nth_error data (Z.to_nat (y + r * x))).
  set (P := flat_map (fun i => map (fun j => (j, i)) (zseq (Z.to_nat c))) (zseq (Z.to_nat r))).
  assert (Hat : forall i j, 1 <= i <= r -> 1 <= j <= c -> m_at (mkM [r; c] data) [i; j] = F (j - 1) (i - 1)).
  { intros i j Hi Hj. unfold m_at. cbn [m_size m_data m_offset]. destruct (Z.leb_spec 1 i); [|lia]. destruct (Z.leb_spec i r); [|lia].
    destruct (Z.leb_spec 1 j); [|lia]. destruct (Z.leb_spec j c); [|lia]. cbn [andb]. unfold F. f_equal. f_equal. lia. }
  assert (HP : forall p, In p P -> 0 <= fst p < c /\ 0 <= snd p < r).
  { intros p Hp. unfold P in Hp. apply in_flat_map in Hp. destruct Hp as [i [Hi Hp]]. apply in_map_iff in Hp. destruct Hp as [j [<- Hj]].
    apply in_zseq in Hi, Hj. cbn [fst snd]. lia. }
  assert (HF : forall x y, 0 <= x < c -> 0 <= y < r -> exists v, F x y = Some v).
  { intros x y Hx Hy. unfold F. destruct (nth_error data (Z.to_nat (y + r * x))) eqn:E; [eauto|]. apply nth_error_None in E. nia. }
  assert (HD : exists D, mapM (fun ij => must (m_at (mkM [r; c] data) [snd ij + 1; fst ij + 1])) P = Ok D /\ Forall2 (fun p v => F (fst p) (snd p) = Some v) P D).
  { assert (K : exists D, Forall2 (fun p v => F (fst p) (snd p) = Some v) P D).
    { clear - HP HF. induction P as [|p P IH]; [exists []; constructor|]. destruct IH as [D HD]; [intros q Hq; apply HP; right; exact Hq|].
      destruct (HP p (or_introl eq_refl)) as [H1 H2]. destruct (HF _ _ H1 H2) as [v Hv]. exists (v :: D). constructor; auto. }
    destruct K as [D HD]. exists D. split; [|exact HD]. apply mapM_must.
    assert (K : forall l m, (forall p, In p l -> In p P) -> Forall2 (fun p v => F (fst p) (snd p) = Some v) l m -> Forall2 (fun p v => m_at (mkM [r; c] data) [snd p + 1; fst p + 1] = Some v) l m).
    { intros l m Hin H. induction H as [|p v l m H _ IH]; constructor; [|apply IH; intros q Hq; apply Hin; right; exact Hq].
      destruct (HP p (Hin p (or_introl eq_refl))) as [H1 H2]. rewrite Hat by lia. rewrite <- H. f_equal; lia. }
    apply K; auto. }
  destruct HD as [D [ED HD]]. rewrite ED. cbn [bind]. eexists. split; [reflexivity|]. cbn [m_size m_data]. split; [reflexivity|].
  assert (HlP : List.length P = (Z.to_nat c * Z.to_nat r)%nat).
  { unfold P. clear. generalize (Z.to_nat r) as n. intros n. unfold zseq at 2. generalize 0%nat as s. induction n as [|n IH]; intros s; cbn [seq map flat_map List.length]; [lia|].
    rewrite app_length, IH, map_length. unfold zseq. rewrite map_length, seq_length. lia. }
  assert (HlD : List.length D = List.length P) by (clear - HD; induction HD; cbn; congruence).
  split; [nia|]. intros i j Hi Hj. rewrite Hat by lia. unfold m_at. cbn [m_size m_data m_offset].
  destruct (Z.leb_spec 1 j); [|lia]. destruct (Z.leb_spec j c); [|lia]. destruct (Z.leb_spec 1 i); [|lia]. destruct (Z.leb_spec i r); [|lia]. cbn [andb].
  assert (EP : nth_error P (Z.to_nat (j - 1 + c * (i - 1 + r * 0))) = Some (j - 1, i - 1)).
  { unfold P. replace (Z.to_nat (j - 1 + c * (i - 1 + r * 0))) with (Z.to_nat (j - 1) + Z.to_nat c * Z.to_nat (i - 1))%nat by nia.
    rewrite (nth_grid _ (fun x y => (x, y))) by lia. f_equal. f_equal; lia. }
  clear - HD EP. revert EP. generalize (Z.to_nat (j - 1 + c * (i - 1 + r * 0))) as n. induction HD as [|p v P D H HD IH]; intros [|n] EP; cbn in EP |- *; try discriminate.
  - injection EP as ->. exact (eq_sym H).
  - exact (IH n EP).
Qed.

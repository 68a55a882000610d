(** GridFacts.v - indexing and neighbourhood facts (C01-C04). *)
From Verif Require Import Base BaseFacts Num Grid Spec.
From Coq Require Import Zdiv.
Open Scope Z_scope.

(** partial products *)
Fixpoint pps (a : Z) (dims : list Z) : list Z :=
  match dims with [] => [] | k :: r => a * k :: pps (a * k) r end.

Lemma box_size_pos dims : proper dims -> 1 <= box_size dims.
Proof.
  induction dims as [|k r IH]; intros H; cbn; [lia|].
  inversion H as [|? ? Hk Hr]; subst. specialize (IH Hr). unfold box_size in IH. nia.
Qed.

Lemma box_size_cons k r : box_size (k :: r) = k * box_size r.
Proof. reflexivity. Qed.

Lemma box_size_app a b : box_size (a ++ b) = box_size a * box_size b.
Proof. induction a as [|k r IH]; [rewrite app_nil_l; change (box_size []) with 1; lia|]. rewrite <- app_comm_cons, !box_size_cons, IH. lia. Qed.

Lemma partials_eq a dims :
  1 <= a -> proper dims -> a * box_size dims < 4294967296 ->
  partials a dims = (pps a dims, a * box_size dims).
Proof.
  revert a; induction dims as [|k r IH]; intros a Ha Hp Hlt; cbn [partials pps].
  - f_equal; cbn; lia.
  - inversion Hp as [|? ? Hk Hr]; subst. rewrite box_size_cons in *.
    pose proof (box_size_pos r Hr) as Hb.
    assert (Hu : u32 (a * k) = a * k) by (apply u32_small; nia).
    rewrite Hu, IH; [|nia|exact Hr|nia].
    f_equal; nia.
Qed.

Lemma mk_shape_eq dims :
  proper dims -> box_size dims < 4294967296 ->
  mk_shape dims = mkShape dims (pps 1 dims) (box_size dims).
Proof.
  intros Hp Hlt; unfold mk_shape.
  rewrite partials_eq; [|lia|exact Hp|lia]. f_equal; lia.
Qed.

Lemma length_pps a dims : length (pps a dims) = length dims.
Proof. revert a; induction dims as [|k r IH]; intros a; cbn; auto. Qed.

Lemma nth_pps a dims n :
  (n < length dims)%nat -> nth_error (pps a dims) n = Some (a * box_size (firstn (S n) dims)).
Proof.
  revert a n; induction dims as [|k r IH]; intros a n Hn; cbn in Hn; [lia|].
  destruct n as [|n]; cbn [pps nth_error].
  - cbn; f_equal; nia.
  - rewrite IH by lia. change (firstn (S (S n)) (k :: r)) with (k :: firstn (S n) r).
    rewrite box_size_cons. f_equal; nia.
Qed.

Lemma pps_app a d1 d2 : pps a (d1 ++ d2) = pps a d1 ++ pps (a * box_size d1) d2.
Proof.
  revert a; induction d1 as [|k r IH]; intros a; cbn [pps app].
  - cbn; rewrite Z.mul_1_r; reflexivity.
  - rewrite IH, box_size_cons. f_equal. f_equal. f_equal. nia.
Qed.

(** *** cell numbers *)
Lemma in_box_length dims cs : in_box dims cs -> length dims = length cs.
Proof. intros H; induction H; cbn; congruence. Qed.

Lemma in_box_proper dims cs : in_box dims cs -> proper dims.
Proof. intros H; induction H; constructor; [lia|assumption]. Qed.

Lemma cell_number_range dims cs : in_box dims cs -> 0 <= cell_number dims cs < box_size dims.
Proof.
  intros H; induction H as [|k c ks cr Hc H IH]; [cbn; lia|].
  cbn [cell_number]; rewrite box_size_cons. nia.
Qed.

Lemma cell_number_inj dims cs ds :
  in_box dims cs -> in_box dims ds -> cell_number dims cs = cell_number dims ds -> cs = ds.
Proof.
  intros H; revert ds; induction H as [|k c ks cr Hc H IH]; intros ds Hd He.
  - inversion Hd; reflexivity.
  - inversion Hd as [|? d ? dr Hdc Hdr]; subst. cbn [cell_number] in He.
    assert (c = d /\ cell_number ks cr = cell_number ks dr) as [-> He'].
    { destruct (Z.lt_trichotomy (cell_number ks cr) (cell_number ks dr)) as [L|[L|L]]; nia. }
    f_equal; apply IH; assumption.
Qed.

(** coordinates of a number *)
Fixpoint coords_of (dims : list Z) (i : Z) : list Z :=
  match dims with [] => [] | k :: r => i mod k :: coords_of r (i / k) end.

Lemma coords_of_in_box dims i :
  proper dims -> 0 <= i < box_size dims -> in_box dims (coords_of dims i).
Proof.
  revert i; induction dims as [|k r IH]; intros i Hp Hi; [constructor|].
  inversion Hp as [|? ? Hk Hr]; subst. rewrite box_size_cons in Hi. cbn [coords_of].
  constructor; [apply Z.mod_pos_bound; lia|]. apply IH; [exact Hr|].
  split; [apply Z.div_pos; lia|]. apply Z.div_lt_upper_bound; lia.
Qed.

Lemma cell_number_coords_of dims i :
  proper dims -> 0 <= i < box_size dims -> cell_number dims (coords_of dims i) = i.
Proof.
  revert i; induction dims as [|k r IH]; intros i Hp Hi; [cbn in *; lia|].
  inversion Hp as [|? ? Hk Hr]; subst. rewrite box_size_cons in Hi. cbn [coords_of cell_number].
  rewrite IH; [|exact Hr|split; [apply Z.div_pos; lia|apply Z.div_lt_upper_bound; lia]].
  rewrite (Z.div_mod i k) at 3 by lia. lia.
Qed.

Lemma cell_number_app d1 d2 c1 c2 :
  length d1 = length c1 ->
  cell_number (d1 ++ d2) (c1 ++ c2) = cell_number d1 c1 + box_size d1 * cell_number d2 c2.
Proof.
  revert c1; induction d1 as [|k r IH]; intros [|c cr] Hl; try discriminate Hl.
  - cbn [app cell_number box_size fold_right]. lia.
  - cbn [app cell_number]. rewrite IH by (cbn in Hl; lia). rewrite box_size_cons. nia.
Qed.

Lemma in_box_app_inv d1 d2 cs :
  in_box (d1 ++ d2) cs -> exists c1 c2, cs = c1 ++ c2 /\ in_box d1 c1 /\ in_box d2 c2.
Proof. intros H; apply Forall2_app_inv_l in H; destruct H as [c1 [c2 [H1 [H2 H3]]]]; eauto. Qed.

(** *** coord2idx computes the cell number *)
Lemma coord2idx_loop_eq a x ks cs :
  1 <= a -> 0 <= x < a -> in_box ks cs -> a * box_size ks < 4294967296 ->
  coord2idx_loop x cs (a :: pps a ks) = Ok (x + a * cell_number ks cs).
Proof.
  intros Ha Hx H; revert a x Ha Hx; induction H as [|k c ks cr Hc H IH]; intros a x Ha Hx Hlt.
  - cbn. f_equal; lia.
  - cbn [coord2idx_loop pps]. rewrite box_size_cons in Hlt.
    pose proof (box_size_pos ks (in_box_proper _ _ H)) as Hb.
    assert (Hk : k <= k * box_size ks) by nia.
    assert (Hm : a * k <= a * (k * box_size ks)) by (apply Z.mul_le_mono_nonneg_l; lia).
    assert (Hca : c * a <= (k - 1) * a) by nia.
    assert (Hu1 : u32 (c * a) = c * a) by (apply u32_small; nia).
    assert (Hu2 : u32 (x + c * a) = x + c * a) by (apply u32_small; nia).
    rewrite Hu1, Hu2, IH; [|nia|nia|nia].
    cbn [cell_number]. f_equal; nia.
Qed.

Lemma coord2idx_eq dims cs :
  dims <> [] -> box_size dims < 4294967296 -> in_box dims cs ->
  coord2idx (mk_shape dims) cs = Ok (cell_number dims cs).
Proof.
  intros Hne Hlt Hb. rewrite mk_shape_eq; [|eapply in_box_proper; eauto|exact Hlt].
  unfold coord2idx; cbn [s_dims s_d].
  rewrite (in_box_length _ _ Hb), Z.eqb_refl; cbn [negb].
  destruct Hb as [|k c ks cr Hc Hr]; [congruence|].
  cbn [pps cell_number]. rewrite Z.mul_1_l. rewrite box_size_cons in Hlt.
  apply coord2idx_loop_eq; [lia|lia|exact Hr|exact Hlt].
Qed.

(** *** idx2coord computes the coordinates *)
Lemma idx2coord_loop_eq dims cs :
  dims <> [] -> box_size dims < 4294967296 -> in_box dims cs ->
  idx2coord_loop (cell_number dims cs) (tl (rev (pps 1 dims))) = Ok (rev cs).
Proof.
  revert cs; induction dims as [|k dims IH] using rev_ind; intros cs Hne Hlt Hb; [congruence|].
  apply in_box_app_inv in Hb; destruct Hb as [c1 [c2 [-> [Hb1 Hb2]]]].
  inversion Hb2 as [|? c ? cr Hc Hr]; subst. inversion Hr; subst.
  rewrite pps_app. cbn [pps]. rewrite rev_app_distr. cbn [rev app tl].
  rewrite cell_number_app by (eapply in_box_length; eauto).
  cbn [cell_number]. rewrite Z.mul_0_r, Z.add_0_r.
  rewrite box_size_app in Hlt. change (box_size [k]) with (k * 1) in Hlt.
  pose proof (box_size_pos dims (in_box_proper _ _ Hb1)) as Hpos.
  pose proof (cell_number_range dims c1 Hb1) as Hrng.
  destruct dims as [|k0 ds].
  - inversion Hb1; subst. cbn. f_equal. f_equal. destruct c; reflexivity.
  - specialize (IH c1 ltac:(discriminate) ltac:(nia) Hb1).
    set (dims := k0 :: ds) in *.
    assert (Hrev : rev (pps 1 dims) = box_size dims :: tl (rev (pps 1 dims))).
    { destruct (exists_last (l := dims) ltac:(discriminate)) as [d' [kk Hd]].
      rewrite Hd, pps_app, rev_app_distr. cbn [pps rev app tl].
      rewrite box_size_app. change (box_size [kk]) with (kk * 1). f_equal; lia. }
    rewrite Hrev. cbn [idx2coord_loop].
    destruct (Z.eqb_spec (box_size dims) 0) as [E|E]; [lia|].
    assert (Hq : (cell_number dims c1 + box_size dims * c) / box_size dims = c).
    { rewrite Z.mul_comm, Z.div_add by lia. rewrite Z.div_small by lia. lia. }
    rewrite Hq. cbv zeta.
    rewrite (u32_small (c * box_size dims)) by nia.
    replace (cell_number dims c1 + box_size dims * c - c * box_size dims)
      with (cell_number dims c1) by lia.
    rewrite u32_small by nia. rewrite IH. cbn [bind].
    rewrite rev_app_distr. reflexivity.
Qed.

Lemma idx2coord_eq dims cs :
  (2 <= length dims)%nat -> box_size dims < 4294967296 -> in_box dims cs ->
  idx2coord (mk_shape dims) (cell_number dims cs) = Ok cs.
Proof.
  intros Hl Hlt Hb. rewrite mk_shape_eq; [|eapply in_box_proper; eauto|exact Hlt].
  unfold idx2coord; cbn [s_d].
  assert (Hne : dims <> []) by (destruct dims; cbn in Hl; [lia|discriminate]).
  pose proof (idx2coord_loop_eq dims cs Hne Hlt Hb) as Hloop.
  assert (Hlen : length (rev (pps 1 dims)) = length dims) by (rewrite rev_length; apply length_pps).
  destruct (rev (pps 1 dims)) as [|x [|y r]]; cbn [length] in Hlen; try lia.
  cbn [tl] in Hloop. rewrite Hloop. cbn [bind]. rewrite rev_involutive; reflexivity.
Qed.

(** *** neighbours *)
Definition stride_of (dims : list Z) (n : nat) : Z := box_size (firstn n dims).
Definition coord_in (dims : list Z) (i : Z) (n : nat) : Z :=
  (i / stride_of dims n) mod (nth n dims 1).

(** neighbours of i along dimension n, written with coordinates *)
Definition nbrs_in (dims : list Z) (i : Z) (n : nat) : list Z :=
  (if 0 <? coord_in dims i n then [i - stride_of dims n] else []) ++
  (if coord_in dims i n + 1 <? nth n dims 1 then [i + stride_of dims n] else []).

Definition nbrs (dims : list Z) (i : Z) : list Z :=
  flat_map (nbrs_in dims i) (seq 0 (length dims)).

Lemma proper_firstn dims n : proper dims -> proper (firstn n dims).
Proof.
  intros H; revert n; induction H as [|k r Hk Hr IH]; intros [|n]; cbn; constructor; auto.
  apply IH.
Qed.

Lemma stride_S dims n :
  (n < length dims)%nat -> stride_of dims (S n) = stride_of dims n * nth n dims 1.
Proof.
  unfold stride_of; revert n; induction dims as [|k r IH]; intros n Hn; cbn in Hn; [lia|].
  destruct n as [|n]; [change (k * 1 = 1 * k); lia|].
  change (firstn (S (S n)) (k :: r)) with (k :: firstn (S n) r).
  change (firstn (S n) (k :: r)) with (k :: firstn n r).
  rewrite !box_size_cons, IH by lia. cbn [nth]. lia.
Qed.

Lemma stride_pos dims n : proper dims -> 1 <= stride_of dims n.
Proof. intros H; apply box_size_pos, proper_firstn, H. Qed.

Lemma stride_le dims n : proper dims -> stride_of dims n <= box_size dims.
Proof.
  intros H. unfold stride_of. rewrite <- (firstn_skipn n dims) at 2.
  rewrite box_size_app.
  pose proof (box_size_pos (firstn n dims) (proper_firstn _ _ H)).
  assert (Hs : proper (skipn n dims)).
  { rewrite <- (firstn_skipn n dims) in H. apply Forall_app in H. apply H. }
  pose proof (box_size_pos _ Hs). nia.
Qed.

Lemma proper_nth dims n : proper dims -> (n < length dims)%nat -> 1 <= nth n dims 1.
Proof. intros H Hn; unfold proper in H; rewrite Forall_forall in H; apply H, nth_In, Hn. Qed.

Lemma getNeighborsInDim_eq dims i n :
  proper dims -> 2 * box_size dims <= 4294967296 -> (n < length dims)%nat ->
  0 <= i < box_size dims ->
  getNeighborsInDim (mk_shape dims) i n = Ok (nbrs_in dims i n).
Proof.
  intros Hp Hlt Hn Hi.
  rewrite mk_shape_eq by (try assumption; lia).
  unfold getNeighborsInDim, stride; cbn [s_d].
  pose proof (stride_S dims n Hn) as HS.
  pose proof (stride_pos dims n Hp) as Hs1.
  pose proof (stride_le dims (S n) Hp) as HS2.
  pose proof (stride_le dims n Hp) as HS3.
  pose proof (proper_nth dims n Hp Hn) as Hk.
  assert (Hst : (match n with O => Ok 1 | S k => vget (pps 1 dims) (Z.of_nat k) end)
                = Ok (stride_of dims n)).
  { destruct n as [|k]; [reflexivity|].
    apply vget_ok; split; [lia|]. rewrite Nat2Z.id, nth_pps by lia. f_equal.
    unfold stride_of; lia. }
  rewrite Hst; cbn [bind].
  assert (Hdd : vget (pps 1 dims) (Z.of_nat n) = Ok (stride_of dims (S n))).
  { apply vget_ok; split; [lia|]. rewrite Nat2Z.id, nth_pps by lia. f_equal.
    unfold stride_of; lia. }
  rewrite Hdd; cbn [bind].
  unfold nbrs_in, coord_in.
  set (st := stride_of dims n) in *. set (k := nth n dims 1) in *.
  rewrite HS. destruct (Z.eqb_spec (st * k) 0) as [E|E]; [nia|].
  cbv zeta. f_equal.
  assert (Hkk : st * k <= box_size dims) by lia.
  (* decompose i *)
  set (q := i / st). assert (Hq : i = st * q + i mod st) by (apply Z.div_mod; lia).
  pose proof (Z.mod_pos_bound i st ltac:(lia)) as Hr. set (r := i mod st) in *.
  set (Q := q / k). assert (HQ : q = k * Q + q mod k) by (apply Z.div_mod; lia).
  pose proof (Z.mod_pos_bound q k ltac:(lia)) as Hc. set (c := q mod k) in *.
  assert (HQ0 : 0 <= Q) by (apply Z.div_pos; [apply Z.div_pos; lia|lia]).
  assert (Hdivi : i / (st * k) = Q).
  { symmetry; apply (Z.div_unique i (st * k) Q (st * c + r)); nia. }
  rewrite Hdivi.
  f_equal.
  - destruct (Z.ltb_spec 0 c) as [L|L].
    + rewrite u32_small by nia.
      assert (Hd : (i - st) / (st * k) = Q).
      { symmetry; apply (Z.div_unique _ (st * k) Q (st * (c - 1) + r)); nia. }
      rewrite Hd, Z.eqb_refl; reflexivity.
    + assert (c = 0) by lia.
      destruct (Z_lt_le_dec i st) as [Hlt'|Hge].
      * assert (Q = 0) by nia.
        assert (Hu : u32 (i - st) = i - st + 4294967296).
        { unfold u32. symmetry. apply (Zmod_unique _ _ (-1)); lia. }
        rewrite Hu.
        assert (Hd : 1 <= (i - st + 4294967296) / (st * k)).
        { apply Z.div_le_lower_bound; nia. }
        destruct (Z.eqb_spec ((i - st + 4294967296) / (st * k)) Q); [lia|reflexivity].
      * rewrite u32_small by lia.
        assert (Hd : (i - st) / (st * k) = Q - 1).
        { symmetry; apply (Z.div_unique _ (st * k) (Q - 1) (st * (k - 1) + r)); nia. }
        rewrite Hd. destruct (Z.eqb_spec (Q - 1) Q); [lia|reflexivity].
  - rewrite u32_small by lia.
    destruct (Z.ltb_spec (c + 1) k) as [L|L].
    + assert (Hd : (i + st) / (st * k) = Q).
      { symmetry; apply (Z.div_unique _ (st * k) Q (st * (c + 1) + r)); nia. }
      rewrite Hd, Z.eqb_refl; reflexivity.
    + assert (Hd : (i + st) / (st * k) = Q + 1).
      { symmetry; apply (Z.div_unique _ (st * k) (Q + 1) r); nia. }
      rewrite Hd. destruct (Z.eqb_spec (Q + 1) Q); [lia|reflexivity].
Qed.

Lemma foldM_flat_map {A B} (f : A -> res (list B)) (g : A -> list B) l acc :
  (forall x, In x l -> f x = Ok (g x)) ->
  foldM (fun acc x => y <- f x ;; Ok (acc ++ y)) l acc = Ok (acc ++ flat_map g l).
Proof.
  revert acc; induction l as [|x r IH]; intros acc H; cbn.
  - rewrite app_nil_r; reflexivity.
  - rewrite (H x (or_introl eq_refl)); cbn. rewrite IH; [|intros; apply H; right; assumption].
    rewrite app_assoc; reflexivity.
Qed.

Lemma getNeighbors_eq dims i :
  proper dims -> 2 * box_size dims <= 4294967296 -> 0 <= i < box_size dims ->
  getNeighbors (mk_shape dims) i = Ok (nbrs dims i).
Proof.
  intros Hp Hlt Hi. unfold getNeighbors.
  assert (Hd : s_dims (mk_shape dims) = dims) by (rewrite mk_shape_eq by (auto; lia); reflexivity).
  rewrite Hd. rewrite (foldM_flat_map _ (nbrs_in dims i)); [reflexivity|].
  intros n Hn; apply in_seq in Hn. apply getNeighborsInDim_eq; auto; lia.
Qed.

(** *** adjacency *)
Lemma unit_step_at_iff cs ds : unit_step cs ds <-> exists n, unit_step_at n cs ds.
Proof.
  split.
  - intros H; induction H as [c d r H|c r s H [n IH]].
    + exists O; constructor; exact H.
    + exists (S n); constructor; exact IH.
  - intros [n H]; induction H; constructor; assumption.
Qed.

Lemma unit_step_at_sym n cs ds : unit_step_at n cs ds -> unit_step_at n ds cs.
Proof. intros H; induction H; constructor; [lia|assumption]. Qed.

Lemma unit_step_at_length n cs ds : unit_step_at n cs ds -> (n < length cs)%nat.
Proof. intros H; induction H; cbn; lia. Qed.

Lemma nth_cell_coord dims cs n :
  in_box dims cs -> (n < length dims)%nat -> coord_in dims (cell_number dims cs) n = nth n cs 0.
Proof.
  unfold coord_in, stride_of. intros H; revert n.
  induction H as [|k c ks cr Hc H IH]; intros n Hn; cbn in Hn; [lia|].
  cbn [cell_number]. destruct n as [|n].
  - cbn [firstn nth box_size fold_right]. rewrite Z.div_1_r.
    rewrite (Z.mul_comm k), Z.mod_add by lia. apply Z.mod_small; lia.
  - change (firstn (S n) (k :: ks)) with (k :: firstn n ks). rewrite box_size_cons. cbn [nth].
    assert (Hp := proper_firstn _ n (in_box_proper _ _ H)).
    pose proof (box_size_pos _ Hp).
    rewrite <- Z.div_div by lia.
    rewrite (Z.mul_comm k (cell_number ks cr)), Z.div_add by lia.
    rewrite (Z.div_small c k) by lia. rewrite Z.add_0_l. apply IH; lia.
Qed.

Lemma unit_step_number n dims cs ds :
  unit_step_at n cs ds -> in_box dims cs -> length ds = length cs ->
  (nth n ds 0 = nth n cs 0 + 1 /\ cell_number dims ds = cell_number dims cs + stride_of dims n) \/
  (nth n cs 0 = nth n ds 0 + 1 /\ cell_number dims ds = cell_number dims cs - stride_of dims n).
Proof.
  intros H; revert dims; induction H as [c d r H|n c r s H IH]; intros dims Hb Hl;
    inversion Hb as [|k ? ks ? Hc Hr]; subst.
  - cbn [cell_number nth]. unfold stride_of; cbn [firstn box_size fold_right]. lia.
  - cbn [cell_number nth]. unfold stride_of.
    change (firstn (S n) (k :: ks)) with (k :: firstn n ks). rewrite box_size_cons.
    destruct (IH ks Hr ltac:(cbn in Hl; lia)) as [[H1 H2]|[H1 H2]]; unfold stride_of in H2;
      rewrite H2; [left|right]; split; auto; nia.
Qed.

Lemma nbrs_in_spec dims i n j :
  proper dims -> 0 <= i < box_size dims -> (n < length dims)%nat ->
  (In j (nbrs_in dims i n) <-> adjacent_in dims n i j).
Proof.
  intros Hp Hi Hn.
  pose proof (coords_of_in_box dims i Hp Hi) as Hb.
  pose proof (cell_number_coords_of dims i Hp Hi) as He.
  set (cs := coords_of dims i) in *.
  assert (Hc : coord_in dims i n = nth n cs 0) by (rewrite <- He; apply nth_cell_coord; assumption).
  pose proof (in_box_length _ _ Hb) as Hlen.
  assert (Hbn : 0 <= nth n cs 0 < nth n dims 1).
  { clear - Hb Hn. revert n Hn; induction Hb as [|k c ks cr Hc H IH]; intros n Hn; cbn in Hn; [lia|].
    destruct n; cbn [nth]; [exact Hc|apply IH; lia]. }
  (* changing coordinate n of cs *)
  assert (Hupd : forall x, 0 <= x < nth n dims 1 ->
           (x = nth n cs 0 + 1 \/ nth n cs 0 = x + 1) ->
           exists ds, in_box dims ds /\ unit_step_at n cs ds /\ nth n ds 0 = x).
  { clear - Hb Hn. revert n Hn; induction Hb as [|k c ks cr Hc H IH]; intros n Hn x Hx Hs; cbn in Hn; [lia|].
    destruct n as [|n]; cbn [nth] in *.
    - exists (x :: cr); split; [constructor; assumption|]. split; [constructor; lia|reflexivity].
    - destruct (IH n ltac:(lia) x Hx Hs) as [ds [H1 [H2 H3]]].
      exists (c :: ds); split; [constructor; assumption|]. split; [constructor; assumption|exact H3]. }
  unfold nbrs_in. rewrite Hc. rewrite in_app_iff. split.
  - intros [Hj|Hj].
    + destruct (Z.ltb_spec 0 (nth n cs 0)) as [L|L]; [|destruct Hj].
      destruct Hj as [<-|[]].
      destruct (Hupd (nth n cs 0 - 1) ltac:(lia) ltac:(lia)) as [ds [H1 [H2 H3]]].
      exists cs, ds; repeat (split; [assumption|]).
      destruct (unit_step_number n dims cs ds H2 Hb) as [[E1 E2]|[E1 E2]];
        [rewrite <- (in_box_length _ _ H1); exact Hlen|lia|lia].
    + destruct (Z.ltb_spec (nth n cs 0 + 1) (nth n dims 1)) as [L|L]; [|destruct Hj].
      destruct Hj as [<-|[]].
      destruct (Hupd (nth n cs 0 + 1) ltac:(lia) ltac:(lia)) as [ds [H1 [H2 H3]]].
      exists cs, ds; repeat (split; [assumption|]).
      destruct (unit_step_number n dims cs ds H2 Hb) as [[E1 E2]|[E1 E2]];
        [rewrite <- (in_box_length _ _ H1); exact Hlen|lia|lia].
  - intros [cs' [ds [H1 [H2 [H3 [H4 H5]]]]]].
    assert (cs' = cs) as -> by (eapply cell_number_inj; [exact H1|exact Hb|lia]).
    assert (Hdn : 0 <= nth n ds 0 < nth n dims 1).
    { clear - H2 Hn. revert n Hn; induction H2 as [|k c ks cr Hc H IH]; intros n Hn; cbn in Hn; [lia|].
      destruct n; cbn [nth]; [exact Hc|apply IH; lia]. }
    destruct (unit_step_number n dims cs ds H3 Hb) as [[E1 E2]|[E1 E2]];
      [rewrite <- (in_box_length _ _ H2); exact Hlen| |].
    + right. destruct (Z.ltb_spec (nth n cs 0 + 1) (nth n dims 1)) as [L|L]; [left; lia|lia].
    + left. destruct (Z.ltb_spec 0 (nth n cs 0)) as [L|L]; [left; lia|lia].
Qed.

Lemma nbrs_spec dims i j :
  proper dims -> 0 <= i < box_size dims ->
  (In j (nbrs dims i) <-> adjacent dims i j).
Proof.
  intros Hp Hi. unfold nbrs. rewrite in_flat_map. split.
  - intros [n [Hn Hj]]. apply in_seq in Hn.
    apply nbrs_in_spec in Hj; [|assumption|assumption|lia].
    destruct Hj as [cs [ds [H1 [H2 [H3 H4]]]]]. exists cs, ds.
    repeat (split; [assumption|]). split; [|exact H4].
    apply unit_step_at_iff; exists n; exact H3.
  - intros [cs [ds [H1 [H2 [H3 H4]]]]]. apply unit_step_at_iff in H3. destruct H3 as [n H3].
    exists n. pose proof (unit_step_at_length _ _ _ H3) as Hn.
    rewrite <- (in_box_length _ _ H1) in Hn.
    split; [apply in_seq; lia|]. apply nbrs_in_spec; auto. exists cs, ds; auto.
Qed.

Lemma nbrs_in_NoDup dims i n : proper dims -> NoDup (nbrs_in dims i n).
Proof.
  intros Hp. pose proof (stride_pos dims n Hp). unfold nbrs_in.
  destruct (0 <? _), (_ <? _); cbn; repeat constructor; cbn; intuition lia.
Qed.

Lemma nbrs_in_disjoint dims i n m j :
  proper dims -> 0 <= i < box_size dims -> (n < length dims)%nat -> (m < length dims)%nat ->
  In j (nbrs_in dims i n) -> In j (nbrs_in dims i m) -> n = m.
Proof.
  intros Hp Hi Hn Hm H1 H2.
  apply nbrs_in_spec in H1; try assumption. apply nbrs_in_spec in H2; try assumption.
  destruct H1 as [cs [ds [A1 [A2 [A3 [A4 A5]]]]]]. destruct H2 as [cs' [ds' [B1 [B2 [B3 [B4 B5]]]]]].
  assert (cs' = cs) as -> by (eapply cell_number_inj; [exact B1|exact A1|lia]).
  assert (ds' = ds) as -> by (eapply cell_number_inj; [exact B2|exact A2|lia]).
  clear - A3 B3. revert m B3; induction A3 as [c d r H|n c r s H IH]; intros m B3; inversion B3; subst.
  - reflexivity.
  - lia.
  - lia.
  - f_equal; apply IH; assumption.
Qed.

Lemma nbrs_NoDup dims i : proper dims -> 0 <= i < box_size dims -> NoDup (nbrs dims i).
Proof.
  intros Hp Hi. unfold nbrs.
  assert (H : forall k, (k <= length dims)%nat -> NoDup (flat_map (nbrs_in dims i) (seq 0 k))).
  { induction k as [|k IH]; intros Hk; [constructor|].
    rewrite seq_S, flat_map_app. cbn. rewrite app_nil_r.
    assert (HN1 : NoDup (flat_map (nbrs_in dims i) (seq 0 k))) by (apply IH; lia).
    assert (HN2 := nbrs_in_NoDup dims i k Hp).
    clear IH. revert HN1 HN2. 
    assert (HD : forall j, In j (flat_map (nbrs_in dims i) (seq 0 k)) -> In j (nbrs_in dims i k) -> False).
    { intros j H1 H2. apply in_flat_map in H1. destruct H1 as [m [Hm H1]]. apply in_seq in Hm.
      assert (m = k) by (eapply nbrs_in_disjoint; eauto; lia). lia. }
    revert HD. generalize (flat_map (nbrs_in dims i) (seq 0 k)) as l, (nbrs_in dims i k) as l2.
    induction l as [|x r IHl]; intros l2 HD H1 H2; cbn; [exact H2|].
    inversion H1; subst. constructor.
    - rewrite in_app_iff; intros [A|A]; [contradiction|]. eapply HD; [left; reflexivity|exact A].
    - apply IHl; auto. intros j A B; eapply HD; [right; exact A|exact B]. }
  apply H; lia.
Qed.

Lemma adjacent_sym dims i j : adjacent dims i j -> adjacent dims j i.
Proof.
  intros [cs [ds [H1 [H2 [H3 [H4 H5]]]]]]. exists ds, cs. repeat (split; [assumption|]).
  split; [|split; assumption].
  clear - H3. induction H3; constructor; [lia|assumption].
Qed.

Lemma adjacent_irrefl dims i : ~ adjacent dims i i.
Proof.
  intros [cs [ds [H1 [H2 [H3 [H4 H5]]]]]].
  assert (cs = ds) as -> by (eapply cell_number_inj; [exact H1|exact H2|lia]).
  clear - H3. remember ds as es eqn:E in H3 at 1. revert E; induction H3; intros E; injection E; intros; [lia|auto].
Qed.

Lemma adjacent_range dims i j : adjacent dims i j -> 0 <= i < box_size dims /\ 0 <= j < box_size dims.
Proof.
  intros [cs [ds [H1 [H2 [H3 [<- <-]]]]]]. split; apply cell_number_range; assumption.
Qed.

Lemma nbrs_sym dims i j :
  proper dims -> 0 <= i < box_size dims ->
  In j (nbrs dims i) -> In i (nbrs dims j).
Proof.
  intros Hp Hi Hj. apply nbrs_spec in Hj; try assumption.
  pose proof (adjacent_range _ _ _ Hj) as [_ Hr].
  apply nbrs_spec; try assumption. apply adjacent_sym; exact Hj.
Qed.

Lemma nbrs_range dims i j :
  proper dims -> 0 <= i < box_size dims -> In j (nbrs dims i) -> 0 <= j < box_size dims.
Proof.
  intros Hp Hi Hj. apply nbrs_spec in Hj; try assumption.
  apply (adjacent_range _ _ _ Hj).
Qed.

Lemma nbrs_in_nbrs dims i n : (n < length dims)%nat -> incl (nbrs_in dims i n) (nbrs dims i).
Proof.
  intros Hn j Hj. unfold nbrs. apply in_flat_map. exists n; split; [apply in_seq; lia|exact Hj].
Qed.

Lemma nbrs_length dims i : (length (nbrs dims i) <= 2 * length dims)%nat.
Proof.
  unfold nbrs.
  assert (H : forall l, (length (flat_map (nbrs_in dims i) l) <= 2 * length l)%nat).
  { induction l as [|x r IH]; [cbn; lia|]. cbn [flat_map length]. rewrite app_length.
    unfold nbrs_in at 1. destruct (0 <? _), (_ <? _); cbn; lia. }
  specialize (H (seq 0 (length dims))). rewrite seq_length in H. exact H.
Qed.

(** a dimension of size at least two offers at least one neighbour *)
Lemma nbrs_in_nonempty dims i n :
  proper dims -> (n < length dims)%nat -> 2 <= nth n dims 1 -> nbrs_in dims i n <> [].
Proof.
  intros Hp Hn H2. unfold nbrs_in.
  pose proof (Z.mod_pos_bound (i / stride_of dims n) (nth n dims 1) ltac:(lia)) as Hc.
  fold (coord_in dims i n) in Hc.
  destruct (Z.ltb_spec 0 (coord_in dims i n)); cbn; [discriminate|].
  destruct (Z.ltb_spec (coord_in dims i n + 1) (nth n dims 1)); [discriminate|lia].
Qed.

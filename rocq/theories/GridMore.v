(** GridMore.v - proofs about grid operations (C04-C09). *)
From Coq Require Import Reals Lra.
From Verif Require Import Base BaseFacts Num NumXR NumF64 NumLaws Grid GridFacts Spec Obs.
Open Scope Z_scope.

Lemma getCell_in {N : Num} dims (g : grid N) i :
  grid_ok dims g -> 0 <= i < box_size dims -> exists c, getCell g i = Ok c.
Proof. intros [_ Hl] Hi. apply vget_in_range. lia. Qed.

Lemma getArrivalTime_in {N : Num} dims (g : grid N) i :
  grid_ok dims g -> 0 <= i < box_size dims -> exists v, getArrivalTime g i = Ok v.
Proof.
  intros H Hi. destruct (getCell_in _ _ _ H Hi) as [c Hc].
  exists (c_val c). unfold getArrivalTime; rewrite Hc; reflexivity.
Qed.

(** *** C05 *)
Lemma min_in_dim {N : Num} (L : NumLaws N) dims (g : grid N) buf i d :
  proper dims -> 2 * box_size dims <= 4294967296 -> grid_ok dims g ->
  0 <= i < box_size dims -> (d < length dims)%nat -> 2 <= nth d dims 1 ->
  exists m buf',
    getMinValueInDim_buf g buf i d = Ok (m, buf') /\
    getMinValueInDim g i d = Ok m /\
    (exists j, adjacent_in dims d i j /\ getArrivalTime g j = Ok m) /\
    (forall j v, adjacent_in dims d i j -> getArrivalTime g j = Ok v -> nltb v m = false).
Proof.
  intros Hp Hlt Hg Hi Hd Hk.
  pose proof (nbrs_in_spec dims i d) as Hspec.
  pose proof (nbrs_in_nonempty dims i d Hp Hd Hk) as Hne.
  assert (Hgn : getNeighborsInDim (g_sh g) i d = Ok (nbrs_in dims i d)).
  { destruct Hg as [-> _]. apply getNeighborsInDim_eq; assumption. }
  assert (Hcell : forall j, In j (nbrs_in dims i d) -> exists v, getArrivalTime g j = Ok v).
  { intros j Hj. apply (getArrivalTime_in dims); [exact Hg|].
    apply (nbrs_range dims i); [assumption|assumption|]. eapply nbrs_in_nbrs; eauto. }
  assert (Hlen : (length (nbrs_in dims i d) <= 2)%nat).
  { unfold nbrs_in; destruct (0 <? _), (_ <? _); cbn; lia. }
  unfold getMinValueInDim_buf, getMinValueInDim. rewrite Hgn. cbn [bind].
  destruct (nbrs_in dims i d) as [|a [|b [|]]] eqn:E; [congruence| | |cbn in Hlen; lia].
  - destruct (Hcell a (or_introl eq_refl)) as [v Hv].
    exists v, (Some a, snd buf). cbn [length Nat.eqb fst]. rewrite Hv. cbn [bind].
    repeat (split; [reflexivity|]). split.
    + exists a; split; [apply Hspec; auto; left; reflexivity|exact Hv].
    + intros j w Hj Hw. apply Hspec in Hj; auto. destruct Hj as [<-|[]].
      rewrite Hv in Hw; injection Hw as <-. apply (nl_irrefl N L).
  - destruct (Hcell a (or_introl eq_refl)) as [va Ha].
    destruct (Hcell b (or_intror (or_introl eq_refl))) as [vb Hb].
    cbn [length Nat.eqb]. rewrite Ha, Hb. cbn [bind].
    exists (if nltb va vb then va else vb), (Some a, Some b).
    repeat (split; [reflexivity|]). split.
    + destruct (nltb va vb).
      * exists a; split; [apply Hspec; auto; left; reflexivity|exact Ha].
      * exists b; split; [apply Hspec; auto; right; left; reflexivity|exact Hb].
    + intros j w Hj Hw. apply Hspec in Hj; auto.
      destruct Hj as [<-|[<-|[]]].
      * rewrite Ha in Hw; injection Hw as <-.
        destruct (nltb va vb) eqn:C; [apply (nl_irrefl N L)|exact C].
      * rewrite Hb in Hw; injection Hw as <-.
        destruct (nltb va vb) eqn:C; [|apply (nl_irrefl N L)].
        destruct (nltb vb va) eqn:C2; [|reflexivity].
        pose proof (nl_trans N L _ _ _ C C2) as C3. rewrite (nl_irrefl N L) in C3; discriminate.
Qed.

Lemma flat_dim_reads_buffer {N : Num} dims (g : grid N) i d a b va vb :
  proper dims -> 2 * box_size dims <= 4294967296 -> grid_ok dims g ->
  0 <= i < box_size dims -> (d < length dims)%nat -> nth d dims 1 = 1 ->
  getArrivalTime g a = Ok va -> getArrivalTime g b = Ok vb ->
  getMinValueInDim_buf g (Some a, Some b) i d = Ok (if nltb va vb then va else vb, (Some a, Some b)).
Proof.
  intros Hp Hlt [Hsh Hl] Hi Hd Hk Ha Hb.
  unfold getMinValueInDim_buf. rewrite Hsh, getNeighborsInDim_eq by assumption. cbn [bind].
  assert (E : nbrs_in dims i d = []).
  { unfold nbrs_in. rewrite Hk.
    pose proof (Z.mod_pos_bound (i / stride_of dims d) (nth d dims 1) ltac:(lia)) as Hc.
    unfold coord_in. rewrite Hk in *.
    destruct (Z.ltb_spec 0 ((i / stride_of dims d) mod 1)); [lia|].
    destruct (Z.ltb_spec ((i / stride_of dims d) mod 1 + 1) 1); [lia|reflexivity]. }
  rewrite E. cbn [length Nat.eqb]. rewrite Ha, Hb. reflexivity.
Qed.

(** *** C06 *)
Lemma resize_fresh {N : Num} (L : NumLaws N) (g : grid N) dims :
  proper dims -> box_size dims < 4294967296 ->
  let g' := resize g dims in
  gsize g' = box_size dims /\ grid_ok dims g' /\ g_clean g' = true /\
  g_leaf g' = g_leaf g /\ g_obs g' = g_obs g /\
  (forall i, 0 <= i < box_size dims ->
     exists c, getCell g' i = Ok c /\ c_val c = ninf /\ c_state c = OPEN /\
               isOccupied c = false /\ c_h c = n0 /\ c_bucket c = 0 /\ c_idx c = i) /\
  (forall i, ~ (0 <= i < box_size dims) -> getCell g' i = Fail UB).
Proof.
  intros Hp Hlt g'. pose proof (box_size_pos dims Hp) as Hb.
  assert (Hn : s_n (mk_shape dims) = box_size dims) by (rewrite mk_shape_eq by assumption; reflexivity).
  assert (Hl : length (g_cells g') = Z.to_nat (box_size dims)).
  { cbn. rewrite map_length, length_zseq, Hn. reflexivity. }
  split; [exact Hn|]. split; [split; [reflexivity|rewrite Hl; lia]|].
  do 3 (split; [reflexivity|]). split.
  - intros i Hi. exists (fresh_cell i). split.
    + apply vget_ok. split; [lia|]. cbn. rewrite nth_error_map, nth_error_zseq by (rewrite Hn; lia).
      cbn. f_equal. f_equal. lia.
    + cbn. repeat (split; [reflexivity|]). split; [apply (nl_1_free N L)|auto].
  - intros i Hi. unfold getCell, vget.
    destruct (Z.leb_spec 0 i) as [H0|H0]; [|reflexivity].
    destruct (nth_error (g_cells g') (Z.to_nat i)) eqn:E; [|reflexivity].
    assert (Hx : (Z.to_nat i < length (g_cells g'))%nat) by (apply nth_error_Some; congruence).
    rewrite Hl in Hx; lia.
Qed.

Lemma resize_wraps {N : Num} (g : grid N) :
  gsize (resize g [65536; 65536]) = 0 /\ (forall i, getCell (resize g [65536; 65536]) i = Fail UB).
Proof.
  assert (H : gsize (resize g [65536; 65536]) = 0) by reflexivity.
  split; [exact H|]. intros i. unfold getCell.
  change (g_cells (resize g [65536; 65536])) with (@nil (cell N)).
  unfold vget. destruct (0 <=? i); [|reflexivity]. destruct (Z.to_nat i); reflexivity.
Qed.

(** *** C07 *)
Lemma clean_spec {N : Num} (g : grid N) i c :
  getCell g i = Ok c ->
  g_sh (clean g) = g_sh g /\ g_leaf (clean g) = g_leaf g /\ g_obs (clean g) = g_obs g /\
  length (g_cells (clean g)) = length (g_cells g) /\ g_clean (clean g) = true /\
  exists c', getCell (clean g) i = Ok c' /\ c_occ c' = c_occ c /\ c_idx c' = c_idx c /\
    (g_clean g = false -> c_val c' = ninf /\ c_state c' = OPEN /\ c_h c' = n0 /\ c_bucket c' = 0) /\
    (g_clean g = true -> c' = c).
Proof.
  intros Hc. unfold clean. destruct (g_clean g) eqn:E; cbn [negb].
  - repeat (split; [reflexivity|]). split; [exact E|]. exists c. split; [exact Hc|].
    repeat (split; [reflexivity|]). split; [discriminate|reflexivity].
  - cbn. repeat (split; [reflexivity|]). rewrite map_length. split; [reflexivity|]. split; [reflexivity|].
    exists (setDefault c). unfold getCell in *; cbn. split.
    + apply vget_ok in Hc. apply vget_ok. split; [apply Hc|]. rewrite nth_error_map.
      destruct Hc as [_ ->]; reflexivity.
    + cbn. repeat (split; [reflexivity|]). split; [auto|discriminate].
Qed.

(** *** C08 *)
Section FoldMax.
Context {N : Num}.
Variable L : NumLaws N.
Variable p : cell N -> bool.
Variable f : cell N -> N.

Lemma fold_max l : forall m0,
  let m := fold_left (fun m c => if p c && nltb m (f c) then f c else m) l m0 in
  (m = m0 \/ (nltb m0 m = true /\ exists c, In c l /\ p c = true /\ f c = m)) /\
  (forall c, In c l -> p c = true -> nltb m (f c) = false).
Proof.
  induction l as [|x r IH]; intros m0; cbn.
  - split; [left; reflexivity|intros c []].
  - destruct (p x && nltb m0 (f x)) eqn:E.
    + apply andb_true_iff in E as [E1 E2].
      destruct (IH (f x)) as [H1 H2]. split.
      * right. destruct H1 as [H1|[H1 [c [Hc1 [Hc2 Hc3]]]]].
        -- rewrite H1. split; [exact E2|]. exists x; auto.
        -- split; [eapply (nl_trans N L); eauto|]. exists c; auto.
      * intros c [<-|Hc] Hp.
        -- destruct H1 as [H1|[H1 _]]; [rewrite H1; apply (nl_irrefl N L)|].
           match goal with |- ?a = false => destruct a eqn:C end; [|reflexivity].
           pose proof (nl_trans N L _ _ _ H1 C) as C'. rewrite (nl_irrefl N L) in C'; discriminate.
        -- apply H2; assumption.
    + destruct (IH m0) as [H1 H2]. split.
      * destruct H1 as [H1|[H1 [c [Hc1 [Hc2 Hc3]]]]]; [left; exact H1|].
        right; split; [exact H1|]. exists c; auto.
      * intros c [<-|Hc] Hp; [|apply H2; assumption].
        rewrite Hp in E; cbn in E.
        destruct H1 as [H1|[H1 _]]; [rewrite H1; exact E|].
        match goal with |- ?a = false => destruct a eqn:C end; [|reflexivity].
        pose proof (nl_trans N L _ _ _ H1 C) as C'. congruence.
Qed.
End FoldMax.

Lemma getMaxValue_spec {N : Num} (L : NumLaws N) (g : grid N) :
  let m := getMaxValue g in
  (m = n0 \/ (nltb n0 m = true /\ exists c, In c (g_cells g) /\ nisinf (c_val c) = false /\ c_val c = m)) /\
  (forall c, In c (g_cells g) -> nisinf (c_val c) = false -> nltb m (c_val c) = false).
Proof.
  pose proof (fold_max L (fun c => negb (nisinf (c_val c))) (@c_val N) (g_cells g) n0) as [H1 H2].
  unfold getMaxValue. split.
  - destruct H1 as [H1|[H1 [c [Hc [Hp Hf]]]]]; [left; exact H1|right].
    split; [exact H1|]. exists c. apply negb_true_iff in Hp. auto.
  - intros c Hc Hp. apply H2; [exact Hc|]. rewrite Hp; reflexivity.
Qed.

Lemma getMaxSpeed_spec {N : Num} (L : NumLaws N) (g : grid N) :
  let m := getMaxSpeed g in
  (m = n0 \/ (nltb n0 m = true /\ exists c, In c (g_cells g) /\ c_occ c = m)) /\
  (forall c, In c (g_cells g) -> nltb m (c_occ c) = false).
Proof.
  pose proof (fold_max L (fun c => true) (@c_occ N) (g_cells g) n0) as [H1 H2].
  unfold getMaxSpeed. cbn [andb] in H1, H2. split.
  - destruct H1 as [H1|[H1 [c [Hc [_ Hf]]]]]; [left; exact H1|right].
    split; [exact H1|]. exists c; auto.
  - intros c Hc. apply H2; [exact Hc|reflexivity].
Qed.

Lemma length_filter_le {A} (p : A -> bool) l : (length (filter p l) <= length l)%nat.
Proof. induction l as [|x r IH]; cbn; [lia|]. destruct (p x); cbn; lia. Qed.

Lemma avg_fold (l : list (cell XR)) (vel : cell XR -> R) :
  (forall c, In c l -> c_occ c = XFin (vel c)) ->
  forall s k,
  fold_left (fun '(s, k) c => if negb (isOccupied c) then (nadd s (c_occ c), k)
                              else (s, (k + 1)%Z)) l ((XFin s : XR), k)
  = (XFin (s + Rsum (map vel (filter (fun c => negb (isOccupied c)) l))),
     k + (Z.of_nat (length l) - Z.of_nat (length (filter (fun c => negb (isOccupied c)) l)))).
Proof.
  induction l as [|c r IH]; intros H s k.
  - cbn. apply f_equal2; [f_equal; ring|lia].
  - assert (Hr : forall c, In c r -> c_occ c = XFin (vel c)) by (intros; apply H; right; assumption).
    cbn [fold_left filter]. destruct (negb (isOccupied c)) eqn:E.
    + rewrite (H c (or_introl eq_refl)).
      change (nadd (XFin s : XR) (XFin (vel c))) with (XFin (s + vel c) : XR).
      rewrite IH by exact Hr. cbn [map Rsum fold_right length].
      f_equal; [f_equal; fold (Rsum (map vel (filter (fun c => negb (isOccupied c)) r))); ring|lia].
    + rewrite IH by exact Hr. cbn [length]. apply f_equal2; [reflexivity|lia].
Qed.

Lemma getAvgSpeed_spec dims (g : grid XR) (vel : cell XR -> R) :
  proper dims -> box_size dims < 4294967296 -> grid_ok dims g ->
  (forall c, In c (g_cells g) -> c_occ c = XFin (vel c)) ->
  let free := filter (fun c => negb (isOccupied c)) (g_cells g) in
  getAvgSpeed g = if Nat.eqb (length free) 0 then XNaN
                  else XFin (Rsum (map vel free) / INR (length free)).
Proof.
  intros Hp Hlt [Hsh Hl] Hv free.
  unfold getAvgSpeed. change (@n0 XR) with (XFin 0 : XR).
  rewrite (avg_fold (g_cells g) vel Hv 0 0). fold free.
  assert (Hfl : (length free <= length (g_cells g))%nat).
  { apply length_filter_le. }
  assert (Hu : u32 (s_n (g_sh g) - (0 + (Z.of_nat (length (g_cells g)) - Z.of_nat (length free))))
               = Z.of_nat (length free)).
  { rewrite Hsh, mk_shape_eq by assumption. cbn [s_n]. rewrite u32_small; lia. }
  rewrite Hu. cbn. rewrite Rplus_0_l. unfold Reqb.
  destruct (Nat.eqb_spec (length free) 0) as [E|E].
  - rewrite E. cbn. destruct (Req_EM_T 0 0) as [_|X]; [|congruence].
    assert (Hf : free = []) by (destruct free; [reflexivity|discriminate]).
    rewrite Hf. cbn. unfold xinf_of_sign, Rltb.
    destruct (Rlt_dec 0 0) as [X|_]; [lra|reflexivity].
  - rewrite <- INR_IZR_INZ.
    destruct (Req_EM_T (INR (length free)) 0) as [X|_]; [|reflexivity].
    exfalso. apply E. apply INR_eq. rewrite X. reflexivity.
Qed.

(** *** C09 *)
Lemma clear_spec {N : Num} (g : grid N) :
  gsize (gclear g) = gsize g /\ s_dims (g_sh (gclear g)) = s_dims (g_sh g) /\
  (forall i, getNeighbors (g_sh (gclear g)) i = getNeighbors (g_sh g) i) /\
  (forall i, getCell (gclear g) i = Fail UB) /\ g_obs (gclear g) = [].
Proof.
  repeat (split; [reflexivity|]). split; [|reflexivity].
  intros i. unfold getCell; cbn. unfold vget. destruct (0 <=? i); [|reflexivity].
  destruct (Z.to_nat i); reflexivity.
Qed.

Lemma resize_wraps' {N : Num} (g : grid N) :
  proper [65536; 65536] /\ box_size [65536; 65536] = 4294967296 /\
  gsize (resize g [65536; 65536]) = 0 /\ (forall i, getCell (resize g [65536; 65536]) i = Fail UB).
Proof.
  split; [repeat constructor; discriminate|]. split; [reflexivity|]. apply resize_wraps.
Qed.

(** *** C01-C04 in the form used by Prop_Grid.v *)
Lemma idx_coord_bijection dims :
  (2 <= length dims)%nat -> proper dims -> box_size dims < 4294967296 ->
  (forall i, 0 <= i < box_size dims ->
     exists cs, idx2coord (mk_shape dims) i = Ok cs /\ in_box dims cs /\
                coord2idx (mk_shape dims) cs = Ok i) /\
  (forall cs, in_box dims cs ->
     exists i, coord2idx (mk_shape dims) cs = Ok i /\ i = cell_number dims cs /\
               0 <= i < box_size dims /\ idx2coord (mk_shape dims) i = Ok cs).
Proof.
  intros Hl Hp Hlt.
  assert (Hne : dims <> []) by (destruct dims; cbn in Hl; [lia|discriminate]).
  split.
  - intros i Hi. exists (coords_of dims i).
    pose proof (coords_of_in_box dims i Hp Hi) as Hb.
    pose proof (cell_number_coords_of dims i Hp Hi) as Hc.
    split; [|split; [exact Hb|]].
    + rewrite <- Hc at 1. apply idx2coord_eq; assumption.
    + rewrite coord2idx_eq by assumption. rewrite Hc. reflexivity.
  - intros cs Hb. exists (cell_number dims cs).
    split; [apply coord2idx_eq; assumption|]. split; [reflexivity|].
    split; [apply cell_number_range; assumption|]. apply idx2coord_eq; assumption.
Qed.

Lemma idx2coord_1d k i : idx2coord (mk_shape [k]) i = Fail UB.
Proof. reflexivity. Qed.

Lemma neighbours_exact dims i :
  proper dims -> 2 * box_size dims <= 4294967296 -> 0 <= i < box_size dims ->
  exists ns, getNeighbors (mk_shape dims) i = Ok ns /\ NoDup ns /\
             (forall j, In j ns <-> adjacent dims i j) /\
             exists per_dim : list (list Z),
               ns = concat per_dim /\ length per_dim = length dims /\
               forall d l, nth_error per_dim d = Some l ->
                 forall j, In j l <-> adjacent_in dims d i j.
Proof.
  intros Hp Hlt Hi. exists (nbrs dims i).
  split; [apply getNeighbors_eq; assumption|].
  split; [apply nbrs_NoDup; assumption|].
  split; [intros j; apply nbrs_spec; assumption|].
  exists (map (nbrs_in dims i) (seq 0 (length dims))).
  split; [unfold nbrs; rewrite flat_map_concat_map; reflexivity|].
  split; [rewrite map_length, seq_length; reflexivity|].
  intros d l Hd j. rewrite nth_error_map in Hd.
  destruct (nth_error (seq 0 (length dims)) d) as [k|] eqn:E; [|discriminate].
  injection Hd as <-.
  assert (Hdl : (d < length dims)%nat).
  { rewrite <- (seq_length (length dims) 0). apply nth_error_Some. congruence. }
  assert (k = d) as ->.
  { apply (nth_error_nth _ _ 0%nat) in E. rewrite seq_nth in E by exact Hdl. lia. }
  apply nbrs_in_spec; assumption.
Qed.

Lemma neighbours_symmetric dims i j ni nj :
  proper dims -> 2 * box_size dims <= 4294967296 ->
  0 <= i < box_size dims -> 0 <= j < box_size dims ->
  getNeighbors (mk_shape dims) i = Ok ni -> getNeighbors (mk_shape dims) j = Ok nj ->
  (In j ni <-> In i nj) /\ ~ In i ni /\ (length ni <= 2 * length dims)%nat.
Proof.
  intros Hp Hlt Hi Hj H1 H2.
  rewrite getNeighbors_eq in H1 by assumption. injection H1 as <-.
  rewrite getNeighbors_eq in H2 by assumption. injection H2 as <-.
  split; [split; apply nbrs_sym; assumption|]. split; [|apply nbrs_length].
  rewrite nbrs_spec by assumption. apply adjacent_irrefl.
Qed.

Lemma neighbours_wrap :
  exists dims i j ns, proper dims /\ box_size dims < 4294967296 /\ 0 <= i < box_size dims /\
    0 <= j < box_size dims /\
    getNeighbors (mk_shape dims) i = Ok ns /\ In j ns /\ ~ adjacent dims i j.
Proof.
  exists [3221225472; 1], 0, 1073741824, [1; 1073741824].
  assert (Hp : proper [3221225472; 1]) by (repeat constructor; discriminate).
  assert (Hb : box_size [3221225472; 1] = 3221225472) by reflexivity.
  split; [exact Hp|]. rewrite Hb. split; [lia|]. split; [lia|]. split; [lia|].
  split; [vm_compute; reflexivity|]. split; [right; left; reflexivity|].
  rewrite <- nbrs_spec by (auto; rewrite Hb; lia).
  assert (Hn : nbrs [3221225472; 1] 0 = [1]) by (vm_compute; reflexivity).
  rewrite Hn. intros [H|[]]; discriminate H.
Qed.

(** a 5x1 grid whose five cells hold the times 0, 1, 2, 3, 4 *)
Definition hist_grid : grid F64 :=
  with_cells (new_grid [5;1] n1)
    (map (fun k => with_val (fresh_cell k) (nofZ k : F64)) [0;1;2;3;4]).

Lemma min_history_dependent :
  exists (g : grid F64) i d m1 m2 b1 b2 x1 x2 y1 y2,
    grid_ok [5;1] g /\
    getMinValueInDim_buf g (None, None) 1 0 = Ok (x1, b1) /\
    getMinValueInDim_buf g (None, None) 3 0 = Ok (x2, b2) /\
    getMinValueInDim_buf g b1 i d = Ok (m1, y1) /\
    getMinValueInDim_buf g b2 i d = Ok (m2, y2) /\
    nltb m1 m2 = true.
Proof.
  exists hist_grid, 2, 1%nat.
  exists (nofZ 0 : F64), (nofZ 2 : F64), (Some 0, Some 2), (Some 2, Some 4).
  exists (nofZ 0 : F64), (nofZ 2 : F64), (Some 0, Some 2), (Some 2, Some 4).
  split; [split; reflexivity|].
  repeat split; reflexivity.
Qed.

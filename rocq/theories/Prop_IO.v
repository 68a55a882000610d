(** Prop_IO.v - C43, C44, C60: loading and saving maps. *)
From Coq Require Import Ascii String.
From Verif Require Import Base BaseFacts Num NumF64 Grid GridFacts GridMore GridUpd Spec Obs NumLaws TextModel TextFacts IOModel IOFacts.
Open Scope Z_scope.
Open Scope list_scope.

Lemma foldM_map {A B S} (f : S -> B -> res S) (h : A -> B) l : forall s, foldM (fun s x => f s (h x)) l s = foldM f (map h l) s.
Proof. induction l as [|x l IH]; intros s; cbn [map foldM]; [reflexivity|]. destruct (f s (h x)); cbn [bind]; auto. Qed.

Lemma foldM_ext_in {A S} (f g : S -> A -> res S) l : (forall s x, In x l -> f s x = g s x) -> forall s, foldM f l s = foldM g l s.
Proof.
  induction l as [|x r IH]; intros H s; cbn [foldM]; [reflexivity|]. rewrite H by (left; reflexivity). destruct (g s x); cbn [bind]; [|reflexivity].
  apply IH. intros s' y Hy. apply H. right. exact Hy.
Qed.

Lemma NoDup_map_on {A B} (f : A -> B) l : (forall x y, In x l -> In y l -> f x = f y -> x = y) -> NoDup l -> NoDup (map f l).
Proof.
  induction l as [|x l IH]; intros Hf Hn; cbn; constructor; inversion Hn; subst.
  - intros K. apply in_map_iff in K. destruct K as [y [E Hy]]. assert (y = x) by (apply Hf; cbn; auto). subst. contradiction.
  - apply IH; auto. intros a b Ha Hb. apply Hf; cbn; auto.
Qed.

Lemma NoDup_app_intro {A} (a b : list A) : NoDup a -> NoDup b -> (forall x, In x a -> ~ In x b) -> NoDup (a ++ b).
Proof.
  intros Ha Hb. induction Ha as [|x a Hx Ha IH]; intros Hd; cbn [app]; [exact Hb|]. constructor.
  - intros K. apply in_app_or in K. destruct K as [K|K]; [contradiction|]. apply (Hd x); [left; auto|exact K].
  - apply IH. intros y Hy. apply Hd. right. exact Hy.
Qed.

Lemma fresh_get {N : Num} (g : grid N) dims i : proper dims -> box_size dims < 4294967296 -> 0 <= i < box_size dims ->
  getCell (resize g dims) i = Ok (fresh_cell i).
Proof.
  intros Hp Hlt Hi. assert (Hn : s_n (mk_shape dims) = box_size dims) by (rewrite mk_shape_eq by assumption; reflexivity).
  apply vget_ok. split; [lia|]. cbn. rewrite nth_error_map, nth_error_zseq by (rewrite Hn; lia). cbn. f_equal. f_equal. lia.
Qed.

Lemma resize_len {N : Num} (g : grid N) dims : proper dims -> box_size dims < 4294967296 -> List.length (g_cells (resize g dims)) = Z.to_nat (box_size dims).
Proof. intros Hp Hlt. unfold resize. cbn [g_cells]. rewrite map_length, length_zseq, mk_shape_eq by auto. reflexivity. Qed.

Lemma Forall2_len {A B} (P : A -> B -> Prop) l m : Forall2 P l m -> List.length l = List.length m.
Proof. induction 1; cbn; congruence. Qed.

(** the list of occupied cells is right *)
Definition obstacles_listed {N : Num} (g : grid N) : Prop :=
  NoDup (g_obs g) /\ forall i, In i (g_obs g) <-> exists c, getCell g i = Ok c /\ isOccupied c = true.

(** * C43 *)
Definition pixels (w h : Z) : list (Z * Z) := flat_map (fun y => map (fun x => (x, y)) (zseq (Z.to_nat w))) (zseq (Z.to_nat h)).

Lemma pixels_in w h x y : 0 <= w -> 0 <= h -> (In (x, y) (pixels w h) <-> 0 <= x < w /\ 0 <= y < h).
Proof.
  intros Hw Hh. unfold pixels. rewrite in_flat_map. split.
  - intros [y' [Hy H]]. apply in_map_iff in H. destruct H as [x' [E Hx]]. injection E as <- <-. apply in_zseq in Hx, Hy. lia.
  - intros [Hx Hy]. exists y. split; [apply in_zseq; lia|]. apply in_map_iff. exists x. split; [reflexivity|]. apply in_zseq; lia.
Qed.
Lemma pixels_NoDup w h : NoDup (pixels w h).
Proof.
  unfold pixels. pose proof (NoDup_zseq (Z.to_nat h)) as Hy. induction Hy as [|y l Hni Hnd IH]; cbn [flat_map]; [constructor|].
  assert (K : NoDup (map (fun x => (x, y)) (zseq (Z.to_nat w)))) by (apply NoDup_map_on; [intros a b _ _ E; congruence|apply NoDup_zseq]).
  apply NoDup_app_intro; auto. intros p Hp Hq. apply in_map_iff in Hp. destruct Hp as [x [<- _]]. apply in_flat_map in Hq. destruct Hq as [y' [Hy' Hq]].
  apply in_map_iff in Hq. destruct Hq as [x' [E _]]. injection E as _ <-. contradiction.
Qed.

Section C43.
Context {N : Num}.

Theorem C43_image_is_flipped : forall (g : grid N) (w h : Z) (img : Z -> Z -> N),
  1 <= w -> 1 <= h -> w * h < 2147483648 ->
  exists g', loadMapFromImg w h img g = Ok g' /\ grid_ok [w; h] g' /\ gsize g' = w * h /\
    g_leaf g' = g_leaf g /\ g_clean g' = true /\
    (forall x y, 0 <= x < w -> 0 <= y < h ->
       exists c, getCell g' (cell_number [w; h] [x; h - 1 - y]) = Ok c /\
         c_occ c = ndiv (img x y) (nofZ 255) /\ c_val c = ninf /\ c_state c = OPEN) /\
    obstacles_listed g'.
Proof.
  intros g w h img Hw Hh Hwh.
  assert (Hp : proper [w; h]) by (repeat (constructor; [lia|]); constructor).
  assert (Hbs : box_size [w; h] = w * h) by (cbn; lia). assert (Hlt : box_size [w; h] < 4294967296) by lia.
  set (idx := fun xy : Z * Z => w * (h - snd xy - 1) + fst xy).
  set (cellv := fun xy : Z * Z => (idx xy, ndiv (img (fst xy) (snd xy)) (nofZ 255))).
  assert (Hidx : forall xy, In xy (pixels w h) -> 0 <= idx xy < w * h).
  { intros [x y] H. apply pixels_in in H; [|lia..]. unfold idx. cbn [fst snd]. nia. }
  assert (Hfold : foldM (fun go xy => i <- img_index w h (fst xy) (snd xy) ;; load_cell go (i, ndiv (img (fst xy) (snd xy)) (nofZ 255)))
                    (pixels w h) (resize g [w; h], []) = foldM load_cell (map cellv (pixels w h)) (resize g [w; h], [])).
  { rewrite <- foldM_map. apply foldM_ext_in. intros go xy Hxy. pose proof (Hidx xy Hxy) as Hi. unfold img_index. fold (idx xy).
    destruct (Z.leb_spec (-2147483648) (idx xy)); [|lia]. destruct (Z.ltb_spec (idx xy) 2147483648); [|lia]. cbn [andb bind]. rewrite u32_small by lia. reflexivity. }
  assert (Hnd : NoDup (map fst (map cellv (pixels w h)))).
  { rewrite map_map. apply NoDup_map_on; [|apply pixels_NoDup]. intros [x y] [x' y'] Ha Hb E. apply pixels_in in Ha, Hb; [|lia..].
    unfold cellv, idx in E. cbn [fst snd] in E. assert (y = y') by nia. subst. f_equal. lia. }
  assert (Hc : forall i v, In (i, v) (map cellv (pixels w h)) -> exists c, getCell (resize g [w; h]) i = Ok c).
  { intros i v H. apply in_map_iff in H. destruct H as [xy [E Hxy]]. injection E as <- _. eexists. apply fresh_get; auto. rewrite Hbs. apply Hidx. exact Hxy. }
  destruct (load_list (map cellv (pixels w h)) (resize g [w; h]) [] Hnd Hc) as [g1 [E [F1 [F2 [F3 [F4 [F5 [F6 F7]]]]]]]].
  unfold loadMapFromImg. fold (pixels w h). rewrite Hfold, E. cbn [bind app]. eexists. split; [reflexivity|].
  assert (Hgok : grid_ok [w; h] (setOccupiedCells g1 (map fst (filter (fun iv => nltb (snd iv) comp_margin) (map cellv (pixels w h)))))).
  { split; cbn [setOccupiedCells g_sh g_cells]; [exact F1|]. rewrite F5, resize_len, Hbs by auto. lia. }
  split; [exact Hgok|]. split.
  { unfold gsize. cbn [setOccupiedCells g_sh]. rewrite F1. cbn [resize g_sh]. rewrite mk_shape_eq by auto. exact Hbs. }
  split; [exact F2|]. split; [exact F3|].
  assert (Hcells : forall x y, 0 <= x < w -> 0 <= y < h -> getCell g1 (idx (x, y)) = Ok (with_occ (fresh_cell (idx (x, y))) (ndiv (img x y) (nofZ 255)))).
  { intros x y Hx Hy. assert (Hin : In (x, y) (pixels w h)) by (apply pixels_in; lia). apply (F6 (idx (x, y)) (ndiv (img x y) (nofZ 255))).
    - apply in_map_iff. exists (x, y). split; auto.
    - apply fresh_get; auto. rewrite Hbs. apply Hidx. exact Hin. }
  split.
  - intros x y Hx Hy. eexists. split; [|split; [|split]].
    + replace (cell_number [w; h] [x; h - 1 - y]) with (idx (x, y)) by (unfold idx; cbn [cell_number fst snd]; lia).
      exact (Hcells x y Hx Hy).
    + reflexivity.
    + reflexivity.
    + reflexivity.
  - split.
    + cbn [setOccupiedCells g_obs]. clear - Hnd. induction (map cellv (pixels w h)) as [|[i v] l IH]; cbn; [constructor|]. inversion Hnd; subst.
      destruct (nltb v comp_margin); cbn [map fst]; auto. constructor; auto. intros K. apply H1. apply in_map_iff in K. destruct K as [p [E Hp]]. apply filter_In in Hp.
      rewrite <- E. apply in_map. tauto.
    + intros i. cbn [setOccupiedCells g_obs]. rewrite in_map_iff. change (getCell (setOccupiedCells g1 _) i) with (getCell g1 i). split.
      * intros [[i' v] [E' Hin]]. cbn [fst] in E'. subst i'. apply filter_In in Hin. destruct Hin as [Hin Hlo]. cbn [snd] in Hlo.
        destruct (Hc i v Hin) as [c Hcc]. rewrite (F6 i v c Hin Hcc). eexists. split; [reflexivity|]. exact Hlo.
      * intros [c [Hcc Ho]]. assert (Hr : 0 <= i < w * h).
        { apply getCell_range in Hcc. rewrite F5, resize_len, Hbs in Hcc by auto. lia. }
        assert (Hx : 0 <= i mod w < w) by (apply Z.mod_pos_bound; lia). assert (Hq : 0 <= i / w < h) by (split; [apply Z.div_pos; lia|apply Z.div_lt_upper_bound; lia]).
        assert (Ei : i = idx (i mod w, h - 1 - i / w)).
        { unfold idx. cbn [fst snd]. replace (h - (h - 1 - i / w) - 1) with (i / w) by lia. apply Z.div_mod. lia. }
        assert (Hin : In (cellv (i mod w, h - 1 - i / w)) (map cellv (pixels w h))) by (apply in_map, pixels_in; lia).
        exists (cellv (i mod w, h - 1 - i / w)). split; [symmetry; exact Ei|]. apply filter_In. split; [exact Hin|].
        unfold cellv in *. cbn [fst snd] in *. rewrite <- Ei in Hin.
        rewrite (F6 _ _ _ Hin (fresh_get g [w; h] i Hp Hlt ltac:(lia))) in Hcc. injection Hcc as <-. exact Ho.
Qed.
End C43.

(** a 2x3 image whose upper left pixel is black: cell (0, 2), index 4, becomes the only obstacle *)
Example C43_case :
  match loadMapFromImg 2 3 (fun x y => if (x =? 0) && (y =? 0) then n0 else nofZ 255) (new_grid [1; 1] (n1 : F64)) with
  | Ok g => match g_obs g with [i] => i =? 4 | _ => false end
  | _ => false end = true.
Proof. vm_compute. reflexivity. Qed.

(** * C44, C60 *)

(** A map file: type line, leaf size, number of dimensions, dimensions, values *)
Definition map_file (first leaf : text) (dims : list Z) (toks : list text) : text :=
  first ++ newline :: leaf ++ newline :: showU (Z.of_nat (List.length dims)) ++
  flat_map (fun d => newline :: showU d ++ [tab]) dims ++ List.concat (map (fun t => newline :: t) toks).

Section C44.
Context {N : Num} (showD : N -> text) (readD : text -> option N).

(** the loaded grid has these dimensions, leaf size and velocities, nothing computed yet,
    and its obstacle list is right *)
Definition loaded (dims : list Z) (leaf : N) (vs : list N) (g : grid N) : Prop :=
  grid_ok dims g /\ gsize g = box_size dims /\ g_leaf g = leaf /\ g_clean g = true /\
  (forall i v, nth_error vs (Z.to_nat i) = Some v -> 0 <= i -> getCell g i = Ok (with_occ (fresh_cell i) v)) /\
  obstacles_listed g.

Lemma load_values : forall (g : grid N) dims leaf vs,
  proper dims -> box_size dims < 4294967296 -> Z.of_nat (List.length vs) = box_size dims ->
  exists g2 obs, foldM load_cell (indexed 0 vs) (setLeafSize (resize g dims) leaf, []) = Ok (g2, obs) /\ loaded dims leaf vs (setOccupiedCells g2 obs).
Proof.
  intros g dims leaf vs Hp Hlt Hl.
  assert (Hget : forall i, 0 <= i < box_size dims -> getCell (setLeafSize (resize g dims) leaf) i = Ok (fresh_cell i)).
  { intros i Hi. change (getCell (setLeafSize (resize g dims) leaf) i) with (getCell (resize g dims) i). apply fresh_get; auto. }
  assert (Hnth : forall i v, nth_error vs (Z.to_nat i) = Some v -> 0 <= i -> 0 <= i < box_size dims).
  { intros i v H H0. assert (Z.to_nat i < List.length vs)%nat by (apply nth_error_Some; congruence). lia. }
  destruct (load_list (indexed 0 vs) (setLeafSize (resize g dims) leaf) []) as [g1 [E [F1 [F2 [F3 [F4 [F5 [F6 F7]]]]]]]].
  - rewrite indexed_fst. apply NoDup_map_on; [intros; lia|apply NoDup_zseq].
  - intros i v H. apply indexed_in in H. destruct H as [H1 H2]. rewrite Z.sub_0_r in H2. eexists. apply Hget. eauto.
  - rewrite E. eexists _, _. split; [reflexivity|]. cbn [app].
    assert (Hln : Z.of_nat (List.length (g_cells g1)) = box_size dims).
    { rewrite F5. change (g_cells (setLeafSize (resize g dims) leaf)) with (g_cells (resize g dims)). rewrite resize_len by auto. pose proof (box_size_pos dims Hp). lia. }
    split; [split; [exact F1|exact Hln]|]. split; [unfold gsize; cbn [setOccupiedCells g_sh]; rewrite F1; cbn; rewrite mk_shape_eq by auto; reflexivity|].
    split; [exact F2|]. split; [exact F3|].
    assert (Hc : forall i v, nth_error vs (Z.to_nat i) = Some v -> 0 <= i -> getCell g1 i = Ok (with_occ (fresh_cell i) v)).
    { intros i v Hv Hi. apply (F6 i v); [apply indexed_in; rewrite Z.sub_0_r; auto|apply Hget; eauto]. }
    split; [exact Hc|]. split.
    + cbn [setOccupiedCells g_obs]. assert (Hnd : NoDup (map fst (indexed 0 vs))) by (rewrite indexed_fst; apply NoDup_map_on; [intros; lia|apply NoDup_zseq]).
      clear - Hnd. induction (indexed 0 vs) as [|[i v] l IH]; cbn; [constructor|]. inversion Hnd; subst.
      destruct (nltb v comp_margin); cbn [map fst]; auto. constructor; auto. intros K. apply H1. apply in_map_iff in K. destruct K as [p [E Hp]]. apply filter_In in Hp.
      rewrite <- E. apply in_map. tauto.
    + intros i. cbn [setOccupiedCells g_obs]. change (getCell (setOccupiedCells g1 _) i) with (getCell g1 i). rewrite in_map_iff. split.
      * intros [[i' v] [E' Hin]]. cbn [fst] in E'. subst i'. apply filter_In in Hin. destruct Hin as [Hin Hlo]. cbn [snd] in Hlo.
        apply indexed_in in Hin. destruct Hin as [Hi Hv]. rewrite Z.sub_0_r in Hv. rewrite (Hc i v Hv Hi). eexists. split; [reflexivity|exact Hlo].
      * intros [c [Hcc Ho]]. pose proof (getCell_range _ _ _ Hcc) as Hr. rewrite Hln in Hr.
        destruct (nth_error vs (Z.to_nat i)) as [v|] eqn:Ev; [|apply nth_error_None in Ev; lia].
        rewrite (Hc i v Ev ltac:(lia)) in Hcc. injection Hcc as <-. exists (i, v). split; [reflexivity|]. apply filter_In. split; [apply indexed_in; rewrite Z.sub_0_r; split; [lia|exact Ev]|exact Ho].
Qed.

(** what loadMapFromText does with a file that has a good header *)
Lemma load_header : forall first leaft leaf dims rest (g : grid N),
  ~ In newline first -> is_token leaft -> readD leaft = Some leaf ->
  (1 <= List.length dims)%nat -> proper dims -> box_size dims < 4294967296 -> Z.of_nat (List.length dims) < 4294967296 ->
  loadMapFromText readD (List.length dims) (Some (first ++ newline :: leaft ++ newline :: showU (Z.of_nat (List.length dims)) ++ dim_lines dims ++ rest)) g =
  '(g2, obs) <- load_cells readD (Z.to_nat (box_size dims)) 0 (mkIn ([tab] ++ rest) true) None (setLeafSize (resize g dims) leaf, []) ;;
  Ok (1, setOccupiedCells g2 obs).
Proof.
  intros first leaft leaf dims rest g Hf Ht Hl Hd Hp Hlt Hnd. unfold loadMapFromText.
  assert (Ecut : skip_line (mkIn (first ++ newline :: leaft ++ newline :: showU (Z.of_nat (List.length dims)) ++ dim_lines dims ++ rest) true) =
                 mkIn (leaft ++ newline :: showU (Z.of_nat (List.length dims)) ++ dim_lines dims ++ rest) true).
  { unfold skip_line. cbn [in_good in_rest]. generalize (leaft ++ newline :: showU (Z.of_nat (List.length dims)) ++ dim_lines dims ++ rest) as t. intros t.
    assert (K : cut newline (first ++ newline :: t) = (first, Some t)).
    { revert Hf. induction first as [|c first IH]; intros Hf; cbn [app cut]; [rewrite Ascii.eqb_refl; reflexivity|].
      destruct (Ascii.eqb_spec c newline) as [->|]; [exfalso; apply Hf; left; reflexivity|]. rewrite IH; [reflexivity|]. intros K. apply Hf. right. exact K. }
    rewrite K. reflexivity. }
  rewrite Ecut. change (leaft ++ newline :: showU (Z.of_nat (List.length dims)) ++ dim_lines dims ++ rest) with ([] ++ leaft ++ (newline :: showU (Z.of_nat (List.length dims)) ++ dim_lines dims ++ rest)).
  rewrite (extract_token readD n0 [] leaft _ None); [|constructor|auto|reflexivity]. rewrite Hl. cbv iota beta.
  change (newline :: showU (Z.of_nat (List.length dims)) ++ dim_lines dims ++ rest) with ([newline] ++ showU (Z.of_nat (List.length dims)) ++ (dim_lines dims ++ rest)).
  rewrite (extract_token (readU 18446744073709551616) 0); [|repeat constructor|apply showU_token|destruct dims; [cbn in Hd; lia|reflexivity]].
  rewrite readU_showU by lia. cbv iota beta. cbn [use bind]. rewrite Z.eqb_refl. cbn [negb].
  replace (match dim_lines dims ++ rest with [] => false | _ :: _ => true end) with true by (destruct dims; [cbn in Hd; lia|reflexivity]).
  assert (Hdr : Forall (fun d => 0 <= d < 4294967296) dims).
  { clear - Hp Hlt. induction Hp as [|d r Hd Hr IH]; [constructor|]. pose proof (box_size_pos r Hr). rewrite box_size_cons in Hlt. constructor; [nia|]. apply IH. nia. }
  change (dim_lines dims ++ rest) with ([] ++ dim_lines dims ++ rest). rewrite read_dims_lines; [|constructor|auto].
  replace (mapM use (map Some dims)) with (@Ok (list Z) dims) by (clear; induction dims as [|d r IH]; cbn [map mapM use bind]; [reflexivity|rewrite <- IH; reflexivity]).
  cbn [bind]. replace (gsize (setLeafSize (resize g dims) leaf)) with (box_size dims) by (unfold gsize; cbn; rewrite mk_shape_eq by auto; reflexivity).
  replace (match dims with [] => [] | _ :: _ => [tab] end) with [tab] by (destruct dims; [cbn in Hd; lia|reflexivity]). reflexivity.
Qed.

Lemma loading_file : forall first leaft leaf dims toks vs (g : grid N),
  ~ In newline first -> is_token leaft -> readD leaft = Some leaf ->
  (1 <= List.length dims)%nat -> Z.of_nat (List.length dims) < 4294967296 -> proper dims -> box_size dims < 4294967296 ->
  Forall is_token toks -> Forall2 (fun t v => readD t = Some v) toks vs -> Z.of_nat (List.length toks) <= box_size dims -> toks <> [] ->
  exists g', loadMapFromText readD (List.length dims) (Some (map_file first leaft dims toks)) g = Ok (1, g') /\
    loaded dims leaf (vs ++ repeat (last vs n0) (Z.to_nat (box_size dims) - List.length toks)) g'.
Proof.
  intros first leaft leaf dims toks vs g Hf Ht Hl Hd Hnd Hp Hlt Htoks Hvs Hlen Hne. unfold map_file. fold (dim_lines dims).
  rewrite (load_header first leaft leaf) by auto. rewrite (load_cells_tokens readD toks vs); [|repeat constructor|auto|auto|lia|left; reflexivity].
  assert (Hlv : List.length vs = List.length toks) by (symmetry; eapply Forall2_len; eauto). pose proof (box_size_pos dims Hp).
  assert (Hvne : vs <> []) by (intros ->; destruct toks; [contradiction|discriminate]).
  destruct (load_values g dims leaf (vs ++ repeat (last vs n0) (Z.to_nat (box_size dims) - List.length toks)) Hp Hlt) as [g2 [obs [E Hload]]].
  { rewrite app_length, repeat_length. lia. }
  rewrite indexed_app, foldM_app in E. destruct (foldM load_cell (indexed 0 vs) (setLeafSize (resize g dims) leaf, [])) as [go'|]; [cbn [bind] in *|discriminate E].
  rewrite Hlv in E.
  destruct (Z.to_nat (box_size dims) - List.length toks)%nat as [|k] eqn:Ek.
  - cbn [repeat indexed foldM] in E. injection E as ->. cbn [bind]. eexists. split; [reflexivity|exact Hload].
  - destruct vs as [|v0 vs']; [contradiction|]. cbn [use bind]. rewrite E. cbn [bind]. eexists. split; [reflexivity|exact Hload].
Qed.

(** C44: what saveVelocities wrote comes back, each number as its decimal text reads *)
Theorem C44_round_trip : forall (g g0 : grid N) dims (rnd : N -> N),
  grid_ok dims g -> (1 <= List.length dims)%nat -> Z.of_nat (List.length dims) < 4294967296 -> proper dims -> box_size dims < 4294967296 ->
  (forall x, x = g_leaf g \/ (exists i c, getCell g i = Ok c /\ x = c_occ c) ->
     showD x <> [] /\ (forall ch, In ch (showD x) -> is_space ch = false) /\ readD (showD x) = Some (rnd x)) ->
  exists file g', saveVelocities showD g = Ok file /\ loadMapFromText readD (List.length dims) (Some file) g0 = Ok (1, g') /\
    g_sh g' = g_sh g /\ g_leaf g' = rnd (g_leaf g) /\ g_clean g' = true /\
    (forall i c, getCell g i = Ok c -> exists c', getCell g' i = Ok c' /\ c_occ c' = rnd (c_occ c) /\ c_val c' = ninf /\ c_state c' = OPEN) /\
    obstacles_listed g'.
Proof.
  intros g g0 dims rnd Hg Hd Hnd Hp Hlt Hsh. destruct Hg as [Hgs Hgl]. pose proof (box_size_pos dims Hp) as Hb.
  assert (Hcell : forall i, 0 <= i < box_size dims -> exists c, getCell g i = Ok c) by (intros i Hi; apply vget_in_range; lia).
  assert (Hmap : mapM (fun i => c <- getCell g i ;; Ok (newline :: showD (c_occ c))) (zseq (Z.to_nat (gsize g))) = Ok (map (fun t => newline :: t) (map showD (map c_occ (g_cells g))))).
  { unfold gsize. rewrite Hgs, mk_shape_eq by auto. cbn [s_n]. replace (Z.to_nat (box_size dims)) with (List.length (g_cells g)) by lia.
    assert (K : forall l pre, g_cells g = pre ++ l -> mapM (fun i => c <- getCell g i ;; Ok (newline :: showD (c_occ c))) (map (fun k => Z.of_nat (List.length pre + k)) (seq 0 (List.length l))) = Ok (map (fun t => newline :: t) (map showD (map c_occ l)))).
    { induction l as [|c l IH]; intros pre E; [reflexivity|]. cbn [List.length seq map mapM].
      assert (Eg : getCell g (Z.of_nat (List.length pre + 0)) = Ok c).
      { apply vget_nth. rewrite E, nth_error_app2 by lia. replace (List.length pre + 0 - List.length pre)%nat with O by lia. reflexivity. }
      rewrite Eg. cbn [bind]. rewrite <- seq_shift, map_map. specialize (IH (pre ++ [c])). rewrite app_length in IH. cbn [List.length] in IH.
      erewrite map_ext; [rewrite IH; [reflexivity|]|]; [rewrite E, <- app_assoc; reflexivity|]. intros k. cbn beta. f_equal. lia. }
    specialize (K (g_cells g) [] eq_refl). cbn [List.length Nat.add] in K. exact K. }
  destruct (Hcell 0 ltac:(lia)) as [c0 Hc0].
  assert (Hsave : saveVelocities showD g = Ok (map_file type_line (showD (g_leaf g)) dims (map showD (map c_occ (g_cells g))))).
  { unfold saveVelocities, save_cells, header. rewrite Hc0. cbn [bind]. rewrite Hmap. cbn [bind]. f_equal. unfold map_file.
    rewrite Hgs. replace (s_dims (mk_shape dims)) with dims by (rewrite mk_shape_eq by auto; reflexivity). repeat (rewrite <- app_assoc; cbn [app]). reflexivity. }
  assert (Htl : ~ In newline type_line).
  { intros K. assert (F : forallb (fun c => negb (Ascii.eqb c newline)) type_line = true) by reflexivity. rewrite forallb_forall in F. specialize (F _ K). rewrite Ascii.eqb_refl in F. discriminate. }
  assert (Hocc : forall c, In c (g_cells g) -> exists i, getCell g i = Ok c).
  { intros c Hc. apply In_nth_error in Hc. destruct Hc as [n Hn]. exists (Z.of_nat n). apply vget_nth. exact Hn. }
  destruct (loading_file type_line (showD (g_leaf g)) (rnd (g_leaf g)) dims (map showD (map c_occ (g_cells g))) (map rnd (map c_occ (g_cells g))) g0 Htl) as [g' [E Hload]]; auto.
  - destruct (Hsh (g_leaf g) (or_introl eq_refl)) as [H1 [H2 _]]. split; [exact H1|]. apply Forall_forall. exact H2.
  - apply (Hsh (g_leaf g) (or_introl eq_refl)).
  - apply Forall_forall. intros t Ht. rewrite map_map in Ht. apply in_map_iff in Ht. destruct Ht as [c [<- Hc]]. destruct (Hocc c Hc) as [i Hi].
    destruct (Hsh (c_occ c)) as [H1 [H2 _]]; [right; eauto|]. split; [exact H1|]. apply Forall_forall. exact H2.
  - assert (K : forall l, (forall c, In c l -> In c (g_cells g)) -> Forall2 (fun t v => readD t = Some v) (map showD (map c_occ l)) (map rnd (map c_occ l))).
    { induction l as [|c l IH]; intros Hl; cbn [map]; constructor.
      - destruct (Hocc c (Hl c (or_introl eq_refl))) as [i Hi]. apply (Hsh (c_occ c)). right; eauto.
      - apply IH. intros c' Hc'. apply Hl. right. exact Hc'. }
    apply K. auto.
  - rewrite !map_length. lia.
  - destruct (g_cells g); [cbn in Hgl; lia|discriminate].
  - exists (map_file type_line (showD (g_leaf g)) dims (map showD (map c_occ (g_cells g)))), g'. split; [exact Hsave|]. split; [exact E|].
    rewrite !map_length in Hload. replace (Z.to_nat (box_size dims) - List.length (g_cells g))%nat with O in Hload by lia. cbn [repeat] in Hload. rewrite app_nil_r in Hload.
    destruct Hload as [[L1 L2] [L3 [L4 [L5 [L6 L7]]]]]. split; [congruence|]. split; [exact L4|]. split; [exact L5|]. split; [|exact L7].
    intros i c Hc. pose proof (getCell_range _ _ _ Hc) as Hr. apply vget_ok in Hc. destruct Hc as [_ Hc].
    eexists. split; [apply (L6 i (rnd (c_occ c))); [|lia]|split; [|split]; reflexivity]. rewrite map_map, nth_error_map, Hc. reflexivity.
Qed.

(** C60: a file with too few values is accepted; the missing cells get the last value read *)
Theorem C60_truncated_file_is_completed : forall first leaft leaf dims toks vs (g : grid N),
  ~ In newline first -> is_token leaft -> readD leaft = Some leaf ->
  (1 <= List.length dims)%nat -> Z.of_nat (List.length dims) < 4294967296 -> proper dims -> box_size dims < 4294967296 ->
  Forall is_token toks -> Forall2 (fun t v => readD t = Some v) toks vs -> Z.of_nat (List.length toks) < box_size dims -> toks <> [] ->
  exists g', loadMapFromText readD (List.length dims) (Some (map_file first leaft dims toks)) g = Ok (1, g') /\
    forall i, 0 <= i < box_size dims -> exists c, getCell g' i = Ok c /\
      (i < Z.of_nat (List.length toks) -> nth_error vs (Z.to_nat i) = Some (c_occ c)) /\
      (Z.of_nat (List.length toks) <= i -> c_occ c = last vs n0).
Proof.
  intros first leaft leaf dims toks vs g Hf Ht Hl Hd Hnd Hp Hlt Htoks Hvs Hlen Hne.
  assert (Hlen' : Z.of_nat (List.length toks) <= box_size dims) by lia.
  destruct (loading_file first leaft leaf dims toks vs g Hf Ht Hl Hd Hnd Hp Hlt Htoks Hvs Hlen' Hne) as [g' [E [L1 [L2 [L3 [L4 [L5 L6]]]]]]].
  exists g'. split; [exact E|]. intros i Hi. assert (Hlv : List.length vs = List.length toks) by (symmetry; eapply Forall2_len; eauto).
  destruct (Z_lt_le_dec i (Z.of_nat (List.length toks))) as [L|L].
  - destruct (nth_error vs (Z.to_nat i)) as [v|] eqn:Ev; [|apply nth_error_None in Ev; lia].
    exists (with_occ (fresh_cell i) v). split; [apply L5; [|lia]; rewrite nth_error_app1 by lia; exact Ev|]. cbn [with_occ c_occ]. split; [auto|lia].
  - exists (with_occ (fresh_cell i) (last vs n0)). split; [apply L5; [|lia]|cbn [with_occ c_occ]; split; [lia|auto]].
    rewrite nth_error_app2 by lia. apply nth_error_repeat. lia.
Qed.

(** a file without any value: an uninitialised variable is used *)
Theorem C60_no_values : forall first leaft leaf dims (g : grid N),
  ~ In newline first -> is_token leaft -> readD leaft = Some leaf ->
  (1 <= List.length dims)%nat -> Z.of_nat (List.length dims) < 4294967296 -> proper dims -> box_size dims < 4294967296 ->
  loadMapFromText readD (List.length dims) (Some (map_file first leaft dims [])) g = Fail UB.
Proof.
  intros first leaft leaf dims g Hf Ht Hl Hd Hnd Hp Hlt. unfold map_file. fold (dim_lines dims). rewrite (load_header first leaft leaf) by auto.
  rewrite (load_cells_tokens readD [] []); [|repeat constructor|auto|auto|cbn; lia|right; reflexivity]. cbn [indexed foldM bind List.length]. rewrite Nat.sub_0_r.
  pose proof (box_size_pos dims Hp). destruct (Z.to_nat (box_size dims)) eqn:Ek; [lia|]. reflexivity.
Qed.

(** an unreadable value (such as the inf that saveGridValues writes for unreached cells):
    this cell and all later ones become obstacles *)
Theorem C60_unreadable_value_blocks_the_rest : forall first leaft leaf dims toks vs bad tl (g : grid N) (L : NumLaws N),
  ~ In newline first -> is_token leaft -> readD leaft = Some leaf ->
  (1 <= List.length dims)%nat -> Z.of_nat (List.length dims) < 4294967296 -> proper dims -> box_size dims < 4294967296 ->
  Forall is_token toks -> Forall2 (fun t v => readD t = Some v) toks vs -> Z.of_nat (List.length toks) < box_size dims ->
  is_token bad -> readD bad = None -> starts_space tl ->
  exists g', loadMapFromText readD (List.length dims) (Some (map_file first leaft dims toks ++ newline :: bad ++ tl)) g = Ok (1, g') /\
    forall i, 0 <= i < box_size dims -> exists c, getCell g' i = Ok c /\
      (i < Z.of_nat (List.length toks) -> nth_error vs (Z.to_nat i) = Some (c_occ c)) /\
      (Z.of_nat (List.length toks) <= i -> c_occ c = n0 /\ isOccupied c = true).
Proof.
  intros first leaft leaf dims toks vs bad tl g L Hf Ht Hl Hd Hnd Hp Hlt Htoks Hvs Hlen Hb1 Hb2 Htl. pose proof (box_size_pos dims Hp).
  assert (Hlv : List.length vs = List.length toks) by (symmetry; eapply Forall2_len; eauto).
  replace (map_file first leaft dims toks ++ newline :: bad ++ tl) with
    (first ++ newline :: leaft ++ newline :: showU (Z.of_nat (List.length dims)) ++ dim_lines dims ++ (List.concat (map (fun t => newline :: t) toks) ++ newline :: bad ++ tl))
    by (unfold map_file; fold (dim_lines dims); repeat (rewrite <- app_assoc; cbn [app]); reflexivity).
  rewrite (load_header first leaft leaf) by auto. rewrite (load_cells_bad readD toks vs); [|repeat constructor|auto|auto|auto|auto|auto|lia].
  destruct (load_values g dims leaf (vs ++ repeat n0 (Z.to_nat (box_size dims) - List.length toks)) Hp Hlt) as [g2 [obs [E Hload]]].
  { rewrite app_length, repeat_length. lia. }
  rewrite E. cbn [bind]. eexists. split; [reflexivity|]. destruct Hload as [L1 [L2 [L3 [L4 [L5 L6]]]]]. intros i Hi.
  destruct (Z_lt_le_dec i (Z.of_nat (List.length toks))) as [Ll|Ll].
  - destruct (nth_error vs (Z.to_nat i)) as [v|] eqn:Ev; [|apply nth_error_None in Ev; lia].
    exists (with_occ (fresh_cell i) v). split; [apply L5; [|lia]; rewrite nth_error_app1 by lia; exact Ev|]. cbn [with_occ c_occ]. split; [auto|lia].
  - exists (with_occ (fresh_cell i) n0). split; [apply L5; [|lia]|cbn [with_occ c_occ]; split; [lia|intros _; split; [reflexivity|apply (nl_0_occ N L)]]].
    rewrite nth_error_app2 by lia. apply nth_error_repeat. lia.
Qed.

(** the number of dimensions must fit, and a missing file is reported *)
Theorem C44_errors : forall first leaft leaf (dims : list Z) rest ndims (g : grid N),
  ~ In newline first -> is_token leaft -> readD leaft = Some leaf -> starts_space rest ->
  Z.of_nat (List.length dims) < 4294967296 -> ndims <> List.length dims ->
  loadMapFromText readD ndims (Some (first ++ newline :: leaft ++ newline :: showU (Z.of_nat (List.length dims)) ++ rest)) g = Fail (Exit 1) /\
  loadMapFromText readD ndims None g = Ok (0, g).
Proof.
  intros first leaft leaf dims rest ndims g Hf Ht Hl Hr Hnd Hne. split; [|reflexivity]. unfold loadMapFromText.
  assert (Ecut : skip_line (mkIn (first ++ newline :: leaft ++ newline :: showU (Z.of_nat (List.length dims)) ++ rest) true) =
                 mkIn (leaft ++ newline :: showU (Z.of_nat (List.length dims)) ++ rest) true).
  { unfold skip_line. cbn [in_good in_rest]. generalize (leaft ++ newline :: showU (Z.of_nat (List.length dims)) ++ rest) as t. intros t.
    assert (K : cut newline (first ++ newline :: t) = (first, Some t)).
    { revert Hf. induction first as [|c first IH]; intros Hf; cbn [app cut]; [rewrite Ascii.eqb_refl; reflexivity|].
      destruct (Ascii.eqb_spec c newline) as [->|]; [exfalso; apply Hf; left; reflexivity|]. rewrite IH; [reflexivity|]. intros K. apply Hf. right. exact K. }
    rewrite K. reflexivity. }
  rewrite Ecut. change (leaft ++ newline :: showU (Z.of_nat (List.length dims)) ++ rest) with ([] ++ leaft ++ (newline :: showU (Z.of_nat (List.length dims)) ++ rest)).
  rewrite (extract_token readD n0 [] leaft _ None); [|constructor|auto|reflexivity]. rewrite Hl. cbv iota beta.
  change (newline :: showU (Z.of_nat (List.length dims)) ++ rest) with ([newline] ++ showU (Z.of_nat (List.length dims)) ++ rest).
  rewrite (extract_token (readU 18446744073709551616) 0); [|repeat constructor|apply showU_token|auto]. rewrite readU_showU by lia. cbv iota beta. cbn [use bind].
  destruct (Z.eqb_spec (Z.of_nat (List.length dims)) (Z.of_nat ndims)); [exfalso; apply Hne; lia|]. reflexivity.
Qed.

(** an unreadable dimension: if it is the last one it is taken as 0 and the map loaded is
    empty; if others follow, they are used uninitialised *)
Lemma skip_first first t : ~ In newline first -> skip_line (mkIn (first ++ newline :: t) true) = mkIn t true.
Proof.
  intros Hf. unfold skip_line. cbn [in_good in_rest].
  assert (K : cut newline (first ++ newline :: t) = (first, Some t)).
  { revert Hf. induction first as [|c first IH]; intros Hf; cbn [app cut]; [rewrite Ascii.eqb_refl; reflexivity|].
    destruct (Ascii.eqb_spec c newline) as [->|]; [exfalso; apply Hf; left; reflexivity|]. rewrite IH; [reflexivity|]. intros K. apply Hf. right. exact K. }
  rewrite K. reflexivity.
Qed.
Lemma read_dims_bad k r : read_dims k (mkIn r false) = (mkIn r false, repeat None k).
Proof. induction k as [|k IH]; [reflexivity|]. cbn [read_dims]. rewrite extract_bad, IH. reflexivity. Qed.
Lemma read_dims_unreadable : forall dims pre bad tl k, Forall (fun c => is_space c = true) pre -> Forall (fun d => 0 <= d < 4294967296) dims ->
  is_token bad -> readU 4294967296 bad = None -> starts_space tl ->
  read_dims (List.length dims + S k) (mkIn (pre ++ dim_lines dims ++ newline :: bad ++ tl) true) = (mkIn tl false, map Some dims ++ Some 0 :: repeat None k).
Proof.
  induction dims as [|d dims IH]; intros pre bad tl k Hp Hd Hb1 Hb2 Htl.
  - cbn [List.length plus read_dims dim_lines flat_map app map].
    replace (pre ++ newline :: bad ++ tl) with ((pre ++ [newline]) ++ bad ++ tl) by (rewrite <- app_assoc; reflexivity).
    rewrite extract_token; [|apply Forall_app; split; [auto|repeat constructor]|auto|auto]. rewrite Hb2. cbv iota beta. rewrite read_dims_bad. reflexivity.
  - inversion Hd as [|? ? Hd1 Hd2]; subst. cbn [List.length plus read_dims dim_lines flat_map].
    replace (pre ++ ((newline :: showU d ++ [tab]) ++ flat_map (fun d => newline :: showU d ++ [tab]) dims) ++ newline :: bad ++ tl)
      with ((pre ++ [newline]) ++ showU d ++ (tab :: dim_lines dims ++ newline :: bad ++ tl)) by (unfold dim_lines; repeat (rewrite <- app_assoc; cbn [app]); reflexivity).
    rewrite extract_token; [|apply Forall_app; split; [auto|repeat constructor]|apply showU_token|reflexivity].
    rewrite readU_showU by auto. cbv iota beta.
    change (tab :: dim_lines dims ++ newline :: bad ++ tl) with ([tab] ++ dim_lines dims ++ newline :: bad ++ tl). rewrite IH; [|repeat constructor|auto|auto|auto|auto].
    reflexivity.
Qed.
Lemma partials_zero : forall ds a, exists l, partials a (ds ++ [0]) = (l, 0).
Proof.
  induction ds as [|d ds IH]; intros a; cbn [app partials].
  - rewrite Z.mul_0_r. eexists. reflexivity.
  - destruct (IH (u32 (a * d))) as [l E]. rewrite E. eexists. reflexivity.
Qed.

Theorem C60_unreadable_dimension : forall first leaft leaf (dims : list Z) bad tl k (g : grid N),
  ~ In newline first -> is_token leaft -> readD leaft = Some leaf -> Z.of_nat (List.length dims + S k) < 4294967296 -> Forall (fun d => 0 <= d < 4294967296) dims ->
  is_token bad -> readU 4294967296 bad = None -> starts_space tl ->
  let load := loadMapFromText readD (List.length dims + S k)
    (Some (first ++ newline :: leaft ++ newline :: showU (Z.of_nat (List.length dims + S k)) ++ dim_lines dims ++ newline :: bad ++ tl)) g in
  (k = O -> exists g', load = Ok (1, g') /\ gsize g' = 0 /\ (forall i, getCell g' i = Fail UB) /\ g_obs g' = [] /\ s_dims (g_sh g') = dims ++ [0]) /\
  (k <> O -> load = Fail UB).
Proof.
  intros first leaft leaf dims bad tl k g Hf Ht Hl Hnd Hd Hb1 Hb2 Htl load.
  set (n := (List.length dims + S k)%nat) in *.
  assert (E : load = (dims' <- mapM use (map Some dims ++ Some 0 :: repeat None k) ;; leaf <- use (Some leaf) ;;
      let g1 := setLeafSize (resize g dims') leaf in
      '(g2, obs) <- load_cells readD (Z.to_nat (gsize g1)) 0 (mkIn tl false) None (g1, []) ;;
      Ok (1, setOccupiedCells g2 obs))).
  { unfold load, loadMapFromText. rewrite skip_first by auto.
    change (leaft ++ newline :: showU (Z.of_nat n) ++ dim_lines dims ++ newline :: bad ++ tl) with ([] ++ leaft ++ (newline :: showU (Z.of_nat n) ++ dim_lines dims ++ newline :: bad ++ tl)).
    rewrite (extract_token readD n0 [] leaft _ None); [|constructor|auto|reflexivity]. rewrite Hl. cbv iota beta.
    change (newline :: showU (Z.of_nat n) ++ dim_lines dims ++ newline :: bad ++ tl) with ([newline] ++ showU (Z.of_nat n) ++ (dim_lines dims ++ newline :: bad ++ tl)).
    rewrite (extract_token (readU 18446744073709551616) 0); [|repeat constructor|apply showU_token|destruct dims; reflexivity].
    rewrite readU_showU by lia. cbv iota beta. cbn [use bind]. rewrite Z.eqb_refl. cbn [negb].
    replace (match dim_lines dims ++ newline :: bad ++ tl with [] => false | _ :: _ => true end) with true by (destruct dims; reflexivity).
    change (dim_lines dims ++ newline :: bad ++ tl) with ([] ++ dim_lines dims ++ newline :: bad ++ tl). unfold n.
    rewrite read_dims_unreadable; [|constructor|auto|auto|auto|auto]. reflexivity. }
  assert (EM : forall l : list (option Z), mapM use (map Some dims ++ l) = (r <- mapM use l ;; Ok (dims ++ r))).
  { intros l. clear. induction dims as [|d dims IH]; cbn [map app mapM use bind]; [destruct (mapM use l); reflexivity|]. rewrite IH. destruct (mapM use l); reflexivity. }
  rewrite E, EM. split.
  - intros ->. cbn [repeat mapM use bind]. destruct (partials_zero dims 1) as [l El].
    assert (ES : mk_shape (dims ++ [0]) = mkShape (dims ++ [0]) l 0) by (unfold mk_shape; rewrite El; reflexivity).
    cbv zeta. unfold gsize. cbn [setLeafSize g_sh resize]. rewrite ES. cbn [s_n]. change (Z.to_nat 0) with O. cbn [load_cells bind].
    eexists. split; [reflexivity|]. unfold gsize, getCell. cbn [setOccupiedCells setLeafSize resize g_sh g_cells g_obs]. rewrite ES. cbn [s_n s_dims].
    split; [reflexivity|]. split; [|split; reflexivity]. intros i. change (map (fresh_cell (N := N)) (zseq (Z.to_nat 0))) with (@nil (cell N)). unfold vget.
    destruct (0 <=? i); [destruct (Z.to_nat i); reflexivity|reflexivity].
  - intros Hk. destruct k as [|k]; [contradiction|]. reflexivity.
Qed.
End C44.

(** Witnesses: numbers written as "0" and "1" *)
Definition ex_show (x : F64) : text := if neqb x n0 then str "0" else str "1".
Definition ex_read (t : text) : option F64 := if text_eqb t (str "0") then Some n0 else if text_eqb t (str "1") then Some n1 else None.
Definition ex_rnd (x : F64) : F64 := if neqb x n0 then n0 else n1.
Definition ex_io_grid : grid F64 :=
  with_cells (new_grid [2; 3] n1) (map (fun i => with_occ (fresh_cell i) (if (i =? 1) || (i =? 4) then n0 else n1)) (zseq 6)).

Example C44_case_hypotheses : grid_ok [2; 3] ex_io_grid /\
  forall x, ex_show x <> [] /\ (forall ch, In ch (ex_show x) -> is_space ch = false) /\ ex_read (ex_show x) = Some (ex_rnd x).
Proof.
  split; [split; reflexivity|]. intros x. unfold ex_show, ex_rnd. destruct (neqb x n0); (split; [discriminate|split; [intros ch [<-|[]]; reflexivity|reflexivity]]).
Qed.
Example C44_case : (file <- saveVelocities ex_show ex_io_grid ;; '(k, g) <- loadMapFromText ex_read 2 (Some file) (new_grid [1; 1] n1) ;; Ok (k, s_dims (g_sh g), g_obs g))
  = Ok (1, [2; 3], [1; 4]).
Proof. vm_compute. reflexivity. Qed.
(** a truncated file, and one with an unreadable value *)
Example C60_case :
  ('(k, g) <- loadMapFromText ex_read 2 (Some (map_file (str "x") (str "1") [2; 3] (map str ["1"; "1"; "0"]%string))) (new_grid [1; 1] n1) ;; Ok (k, g_obs g)) = Ok (1, [2; 3; 4; 5]) /\
  ('(k, g) <- loadMapFromText ex_read 2 (Some (map_file (str "x") (str "1") [2; 3] (map str ["0"; "1"; "1"]%string))) (new_grid [1; 1] n1) ;; Ok (k, g_obs g)) = Ok (1, [0]) /\
  ('(k, g) <- loadMapFromText ex_read 2 (Some (map_file (str "x") (str "1") [2; 3] (map str ["1"; "inf"; "1"; "1"; "1"; "1"]%string))) (new_grid [1; 1] n1) ;; Ok (k, g_obs g)) = Ok (1, [1; 2; 3; 4; 5]).
Proof. repeat split; vm_compute; reflexivity. Qed.
(** dimensions "2 x", and "x 2" *)
Example C60_case_dimension :
  let file := fun dims => Some (str "a" ++ newline :: str "1" ++ newline :: showU 2 ++ newline :: str dims) in
  (~ In newline (str "a") /\ is_token (str "1") /\ ex_read (str "1") = Some n1 /\ is_token (str "x") /\ readU 4294967296 (str "x") = None) /\
  match loadMapFromText ex_read 2 (file "2 x 1"%string) (new_grid [1; 1] n1) with Ok (k, g) => k =? 1 | _ => false end = true /\
  match loadMapFromText ex_read 2 (file "x 2 1"%string) (new_grid [1; 1] n1) with Fail UB => true | _ => false end = true.
Proof.
  cbv zeta. split; [|split; vm_compute; reflexivity]. split; [intros [K|[]]; discriminate K|].
  split; [split; [discriminate|repeat constructor]|]. split; [reflexivity|]. split; [split; [discriminate|repeat constructor]|reflexivity].
Qed.

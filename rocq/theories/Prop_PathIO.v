(** Prop_PathIO.v - property theorems C62: the files GridWriter writes can be taken apart
    again, line by line and field by field. *)
From Coq Require Import Ascii String.
From Verif Require Import Base BaseFacts Num Grid GridFacts GridMore GridUpd Spec Obs NumLaws TextModel TextFacts IOModel IOFacts
  FMMModel SolverModel FM2Model GDModel Prop_GD.
Open Scope Z_scope.
Open Scope list_scope.

(** ** specification: the pieces of a text between separators *)
Fixpoint pieces (d : ascii) (t : text) : list text :=
  match t with
  | [] => [[]]
  | c :: r => if Ascii.eqb c d then [] :: pieces d r
              else match pieces d r with f :: fs => (c :: f) :: fs | [] => [[c]] end
  end.
(** a table: lines of tab-separated fields *)
Definition table (t : text) : list (list text) := map (pieces tab) (pieces newline t).
(** a text without separators *)
Definition plain (t : text) : Prop := ~ In newline t /\ ~ In tab t.

Lemma pieces_none d t : ~ In d t -> pieces d t = [t].
Proof.
  induction t as [|c t IH]; intros H; [reflexivity|]. cbn [pieces]. destruct (Ascii.eqb_spec c d) as [->|]; [exfalso; apply H; left; reflexivity|].
  rewrite IH; [reflexivity|]. intros K. apply H. right. exact K.
Qed.
Lemma pieces_cut d a b : ~ In d a -> pieces d (a ++ d :: b) = a :: pieces d b.
Proof.
  induction a as [|c a IH]; intros H; cbn [app pieces]; [rewrite Ascii.eqb_refl; reflexivity|].
  destruct (Ascii.eqb_spec c d) as [->|]; [exfalso; apply H; left; reflexivity|]. rewrite IH; [reflexivity|]. intros K. apply H. right. exact K.
Qed.
Lemma pieces_lines d a ls : ~ In d a -> Forall (fun l => ~ In d l) ls -> pieces d (a ++ flat_map (fun l => d :: l) ls) = a :: ls.
Proof.
  intros Ha Hl. revert a Ha. induction Hl as [|l ls H _ IH]; intros a Ha; cbn [flat_map].
  - rewrite app_nil_r. apply pieces_none. exact Ha.
  - cbn [app]. rewrite pieces_cut by exact Ha. rewrite IH by exact H. reflexivity.
Qed.
Lemma pieces_ended (T : Type) (f : T -> text) d (p : list T) last : (forall x, ~ In d (f x)) -> ~ In d last ->
  pieces d (flat_map (fun x => f x ++ [d]) p ++ last) = map f p ++ [last].
Proof.
  intros Hf Hl. induction p as [|x p IH]; cbn [flat_map map app]; [apply pieces_none; exact Hl|].
  rewrite <- !app_assoc. cbn [app]. rewrite pieces_cut by apply Hf. rewrite IH. reflexivity.
Qed.
Lemma showU_plain n : plain (showU n).
Proof.
  destruct (showU_token n) as [_ H]. rewrite Forall_forall in H. split; intros K; specialize (H _ K); cbn in H; discriminate.
Qed.
Lemma in_ended (T : Type) (f : T -> text) (p : list T) c : (forall x, ~ In c (f x)) -> c <> tab -> ~ In c (flat_map (fun x => f x ++ [tab]) p).
Proof.
  intros Hf Hc K. apply in_flat_map in K. destruct K as [x [_ K]]. apply in_app_or in K. destruct K as [K|[K|[]]]; [exact (Hf x K)|congruence].
Qed.
Lemma nl_tab : newline <> tab. Proof. discriminate. Qed.

Section Files.
Context {N : Num} (showD : N -> text).
Hypothesis showD_plain : forall x, plain (showD x).

(** the first lines of the path files *)
Definition path_header (g : grid N) (dimline : Z -> list text) : list (list text) :=
  [showD (g_leaf g)] :: [showU (Z.of_nat (List.length (s_dims (g_sh g))))] :: map dimline (s_dims (g_sh g)).

(** savePath: leaf size, number of dimensions, the dimensions, then one line per point with
    its coordinates; every line of a dimension or a point ends with a tab. *)
Theorem C62_path_file : forall (g : grid N) (path : list (list N)),
  table (savePath showD g path) =
    path_header g (fun d => [showU d; []]) ++ map (fun p => map showD p ++ [[]]) path.
Proof.
  intros g path.
  assert (E : savePath showD g path = showD (g_leaf g) ++ flat_map (fun l => newline :: l)
     (showU (Z.of_nat (List.length (s_dims (g_sh g)))) :: map (fun d => showU d ++ [tab]) (s_dims (g_sh g)) ++
      map (fun p => flat_map (fun x => showD x ++ [tab]) p) path)).
  { unfold savePath. cbn [flat_map app]. rewrite flat_map_app. rewrite !flat_map_concat_map, !map_map. reflexivity. }
  unfold table. rewrite E. rewrite pieces_lines; [|apply showD_plain|].
  - cbn [map]. rewrite (pieces_none tab (showD _)) by apply showD_plain. rewrite (pieces_none tab (showU _)) by apply showU_plain.
    unfold path_header. cbn [app]. f_equal. f_equal. rewrite map_app, !map_map. f_equal; apply map_ext.
    + intros d. rewrite pieces_cut by apply showU_plain. reflexivity.
    + intros p. rewrite <- (app_nil_r (flat_map _ p)). apply pieces_ended; [intros; apply showD_plain|intros []].
  - constructor; [apply showU_plain|]. apply Forall_app. split; apply Forall_forall; intros l Hl; apply in_map_iff in Hl; destruct Hl as [x [<- _]].
    + intros K. apply in_app_or in K. destruct K as [K|[K|[]]]; [exact (proj1 (showU_plain x) K)|exact (nl_tab (eq_sym K))].
    + apply in_ended; [intros; apply showD_plain|exact nl_tab].
Qed.

(** so two paths with the same file print the same *)
Theorem C62_path_file_determines_the_path : forall (g : grid N) path path',
  savePath showD g path = savePath showD g path' -> map (map showD) path = map (map showD) path'.
Proof.
  intros g path path' H. apply (f_equal table) in H. rewrite !C62_path_file in H. apply app_inv_head in H. revert path' H.
  induction path as [|p path IH]; intros [|p' path'] H; cbn in H; try discriminate; [reflexivity|]. injection H as H1 H2. cbn [map]. f_equal; [|apply IH; exact H2].
  apply app_inj_tail in H1. exact (proj1 H1).
Qed.

(** savePathVelocity: as above, each point followed by its velocity (no tabs at the ends of
    lines).  Surplus velocities are ignored; with fewer velocities than points the vector
    is read beyond its end. *)
Theorem C62_velocity_file : forall (g : grid N) (path : list (list N)) (vel : list N),
  ((List.length path <= List.length vel)%nat ->
   exists t, savePathVelocity showD g path vel = Ok t /\
     table t = path_header g (fun d => [showU d]) ++ map (fun pv => map showD (fst pv) ++ [showD (snd pv)]) (combine path vel)) /\
  ((List.length vel < List.length path)%nat -> savePathVelocity showD g path vel = Fail UB).
Proof.
  intros g path vel.
  set (F := fun ip : Z * list N => v <- vget vel (fst ip) ;; Ok (newline :: flat_map (fun x => showD x ++ [tab]) (snd ip) ++ showD v)).
  assert (HM : forall rest pre vs, vel = pre ++ vs ->
     ((List.length rest <= List.length vs)%nat -> mapM F (combine (map (fun k => Z.of_nat (List.length pre + k)) (seq 0 (List.length rest))) rest) =
       Ok (map (fun pv => newline :: flat_map (fun x => showD x ++ [tab]) (fst pv) ++ showD (snd pv)) (combine rest vs))) /\
     ((List.length vs < List.length rest)%nat -> mapM F (combine (map (fun k => Z.of_nat (List.length pre + k)) (seq 0 (List.length rest))) rest) = Fail UB)).
  { induction rest as [|p rest IH]; intros pre vs E; [split; [reflexivity|cbn; lia]|]. cbn [List.length seq map combine mapM]. unfold F at 1 3. cbn [fst snd].
    destruct vs as [|v vs].
    - split; [cbn; lia|]. intros _. assert (EV : vget vel (Z.of_nat (List.length pre + 0)) = Fail UB).
      { rewrite E, app_nil_r. unfold vget. destruct (Z.leb_spec 0 (Z.of_nat (List.length pre + 0))); [|lia]. rewrite Nat2Z.id.
        rewrite (proj2 (nth_error_None pre _)); [reflexivity|lia]. }
      rewrite EV. reflexivity.
    - assert (EV : vget vel (Z.of_nat (List.length pre + 0)) = Ok v).
      { apply vget_nth. rewrite E, nth_error_app2 by lia. replace (List.length pre + 0 - List.length pre)%nat with O by lia. reflexivity. }
      rewrite EV. cbn [bind]. specialize (IH (pre ++ [v]) vs). rewrite <- app_assoc in IH. specialize (IH E).
      assert (ES : combine (map (fun k => Z.of_nat (List.length pre + k)) (seq 1 (List.length rest))) rest =
                   combine (map (fun k => Z.of_nat (List.length (pre ++ [v]) + k)) (seq 0 (List.length rest))) rest).
      { f_equal. rewrite <- seq_shift, map_map. apply map_ext. intros k. rewrite app_length. cbn [List.length]. f_equal. lia. }
      rewrite ES. destruct IH as [IH1 IH2]. split; intros Hl.
      + rewrite IH1 by (cbn in Hl; lia). reflexivity.
      + rewrite IH2 by (cbn in Hl; lia). reflexivity. }
  destruct (HM path [] vel eq_refl) as [H1 H2]. cbn [List.length Nat.add] in H1, H2.
  change (map (fun k => Z.of_nat k) (seq 0 (List.length path))) with (zseq (List.length path)) in H1, H2.
  unfold savePathVelocity. fold F. split; intros Hl; [|rewrite H2 by exact Hl; reflexivity].
  rewrite H1 by exact Hl. cbn [bind]. eexists. split; [reflexivity|].
  match goal with |- table ?t = _ => assert (E : t = showD (g_leaf g) ++ flat_map (fun l => newline :: l)
     (showU (Z.of_nat (List.length (s_dims (g_sh g)))) :: map showU (s_dims (g_sh g)) ++
      map (fun pv => flat_map (fun x => showD x ++ [tab]) (fst pv) ++ showD (snd pv)) (combine path vel))) end.
  { cbn [flat_map app]. rewrite flat_map_app. rewrite !flat_map_concat_map, !map_map. reflexivity. }
  unfold table. rewrite E. rewrite pieces_lines; [|apply showD_plain|].
  - cbn [map]. rewrite (pieces_none tab (showD _)) by apply showD_plain. rewrite (pieces_none tab (showU _)) by apply showU_plain.
    unfold path_header. cbn [app]. f_equal. f_equal. rewrite map_app, !map_map. f_equal; apply map_ext.
    + intros d. apply pieces_none, showU_plain.
    + intros pv. apply pieces_ended; [intros; apply showD_plain|apply showD_plain].
  - constructor; [apply showU_plain|]. apply Forall_app. split; apply Forall_forall; intros l Hl'; apply in_map_iff in Hl'; destruct Hl' as [x [<- _]].
    + apply showU_plain.
    + intros K. apply in_app_or in K. destruct K as [K|K]; [revert K; apply in_ended; [intros; apply showD_plain|exact nl_tab]|exact (proj1 (showD_plain _) K)].
Qed.

(** the path and the velocities an extraction returns can always be saved together, one
    line per point *)
Theorem C62_extracted_path_can_be_saved : forall (g : grid N) fuel idx (step : N) idx' path vel,
  gd_apply fuel g idx [] [] step = Ok (idx', path, vel) ->
  exists t, savePathVelocity showD g path vel = Ok t /\ List.length (table t) = (2 + List.length (s_dims (g_sh g)) + List.length path)%nat.
Proof.
  intros g fuel idx step idx' path vel H. destruct (C42_one_velocity_per_point N g fuel idx step idx' path vel H) as [Hl _].
  destruct (proj1 (C62_velocity_file g path vel) ltac:(lia)) as [t [E T]]. exists t. split; [exact E|]. rewrite T.
  unfold path_header. rewrite app_length. cbn [List.length]. rewrite !map_length, combine_length. lia.
Qed.

(** the map files: type line, header as for savePath, one value per line *)
Theorem C62_grid_file : forall (sel : cell N -> N) dims (g : grid N), grid_ok dims g -> proper dims -> box_size dims < 4294967296 ->
  exists t, save_cells showD sel g = Ok t /\
    table t = [type_line] :: path_header g (fun d => [showU d; []]) ++ map (fun c => [showD (sel c)]) (g_cells g).
Proof.
  intros sel dims g Hg Hp Hlt. destruct Hg as [Hgs Hgl]. pose proof (box_size_pos dims Hp) as Hb.
  assert (Hmap : mapM (fun i => c <- getCell g i ;; Ok (newline :: showD (sel c))) (zseq (Z.to_nat (gsize g))) = Ok (map (fun c => newline :: showD (sel c)) (g_cells g))).
  { unfold gsize. rewrite Hgs, mk_shape_eq by auto. cbn [s_n]. replace (Z.to_nat (box_size dims)) with (List.length (g_cells g)) by lia.
    assert (K : forall l pre, g_cells g = pre ++ l -> mapM (fun i => c <- getCell g i ;; Ok (newline :: showD (sel c))) (map (fun k => Z.of_nat (List.length pre + k)) (seq 0 (List.length l))) = Ok (map (fun c => newline :: showD (sel c)) l)).
    { induction l as [|c l IH]; intros pre E; [reflexivity|]. cbn [List.length seq map mapM].
      assert (Eg : getCell g (Z.of_nat (List.length pre + 0)) = Ok c).
      { apply vget_nth. rewrite E, nth_error_app2 by lia. replace (List.length pre + 0 - List.length pre)%nat with O by lia. reflexivity. }
      rewrite Eg. cbn [bind]. rewrite <- seq_shift, map_map. specialize (IH (pre ++ [c])). rewrite app_length in IH. cbn [List.length] in IH.
      erewrite map_ext; [rewrite IH; [reflexivity|]|]; [rewrite E, <- app_assoc; reflexivity|]. intros k. cbn beta. f_equal. lia. }
    specialize (K (g_cells g) [] eq_refl). cbn [List.length Nat.add] in K. exact K. }
  assert (Hc0 : exists c0, getCell g 0 = Ok c0) by (apply vget_in_range; lia). destruct Hc0 as [c0 Hc0].
  unfold save_cells, header. rewrite Hc0. cbn [bind]. rewrite Hmap. cbn [bind]. eexists. split; [reflexivity|].
  assert (Htl : plain type_line).
  { split; intros K.
    - assert (F : forallb (fun c => negb (Ascii.eqb c newline)) type_line = true) by reflexivity. rewrite forallb_forall in F. specialize (F _ K). rewrite Ascii.eqb_refl in F. discriminate.
    - assert (F : forallb (fun c => negb (Ascii.eqb c tab)) type_line = true) by reflexivity. rewrite forallb_forall in F. specialize (F _ K). rewrite Ascii.eqb_refl in F. discriminate. }
  match goal with |- table ?t = _ => assert (E : t = type_line ++ flat_map (fun l => newline :: l)
     (showD (g_leaf g) :: showU (Z.of_nat (List.length (s_dims (g_sh g)))) :: map (fun d => showU d ++ [tab]) (s_dims (g_sh g)) ++
      map (fun c => showD (sel c)) (g_cells g))) end.
  { cbn [flat_map]. rewrite flat_map_app. rewrite !flat_map_concat_map, !map_map. repeat (rewrite <- app_assoc; cbn [app]). reflexivity. }
  unfold table. rewrite E. rewrite pieces_lines; [|apply Htl|].
  - cbn [map]. rewrite (pieces_none tab type_line) by apply Htl. rewrite (pieces_none tab (showD _)) by apply showD_plain. rewrite (pieces_none tab (showU _)) by apply showU_plain.
    unfold path_header. cbn [app]. f_equal. f_equal. f_equal. rewrite map_app, !map_map. f_equal; apply map_ext.
    + intros d. rewrite pieces_cut by apply showU_plain. reflexivity.
    + intros c. apply pieces_none, showD_plain.
  - constructor; [apply showD_plain|]. constructor; [apply showU_plain|]. apply Forall_app. split; apply Forall_forall; intros l Hl; apply in_map_iff in Hl; destruct Hl as [x [<- _]].
    + intros K. apply in_app_or in K. destruct K as [K|[K|[]]]; [exact (proj1 (showU_plain x) K)|exact (nl_tab (eq_sym K))].
    + apply showD_plain.
Qed.
End Files.

(** the hypothesis can be met, and a file: a 3x2 grid and a path of two points *)
Example C62_case : forall N : Num, let showD := fun _ : N => str "0.5" in (forall x, plain (showD x)) /\
  table (savePath showD (new_grid [3; 2] n1) [[n1; n1]; [n0; n1]]) =
    [[str "0.5"]; [str "2"]; [str "3"; []]; [str "2"; []]; [str "0.5"; str "0.5"; []]; [str "0.5"; str "0.5"; []]].
Proof.
  intros N showD. split; [|reflexivity]. intros x. split; intros K; cbn in K; repeat (destruct K as [K|K]; [discriminate|]); exact K.
Qed.

(** Prop_TestFM2.v - property theorems C112: the program examples/test_fm2.cpp. *)
From Coq Require Import Ascii String Reals Lra.
From Verif Require Import Base BaseFacts Num NumF64 NumXR NumLaws Grid GridFacts GridMore GridUpd XGrid Spec Obs Eikonal FMMModel SweepModel QueueModel UntidyModel SolverModel
  HeapLaws HeapRef DaryModel FibModel Frame Lifecycle Solution Prop_FMM BagHeap DaryHeap FibHeap TextModel TextSpec TextFacts IOModel BenchModel Prop_Text CfgModel FM2Model FM2Facts Prop_FM2
  GDModel PlotModel Prop_FM2Obj Prop_FM2Star FMMStruct FMMReach EikR FMMAbs Relax Exact Examples FloatOps FloatUpd FloatAbs FloatGrid FloatSweep FloatFMM Prop_Solver Prop_Clear Prop_Bound Prop_Heap Prop_Float Prop_FM2Float Prop_Cfg Prop_CfgRun Prop_IO ExampleModel Prop_Example.
Open Scope Z_scope.
Open Scope list_scope.

Section C112.
Context {N : Num}.

(** What one planner computes on the map [img] (w x h pixels), a new object on a grid that
    holds nothing but this map: the start is the cell with index 30+20w, the goal the one with
    index 375+280w; then a path is extracted from the start and drawn. *)
Definition planned fuel pfuel (p : planner N) w h (img : Z -> Z -> N) (t : turn_out N) : Prop :=
  exists g o g1 o1 o2, loadMapFromImg w h img empty_grid = Ok g /\
    (if pl_star p then star_ready (pl_heap p) (f2_heur (pl_obj p)) (nofZ (-1)) g [u32 (30 + 20 * w)] (u32 (375 + 280 * w)) = Ok (o, g1)
     else fm2_ready (pl_heap p) (nofZ (-1)) g [u32 (30 + 20 * w)] (u32 (375 + 280 * w)) = Ok (o, g1)) /\
    (if pl_star p then fm2star_compute (pl_heap p) fuel o g1 else fm2_compute (pl_heap p) fuel o g1) = Ok (o1, to_grid t) /\
    fm2_computePath pfuel o1 (to_grid t) [] [] n1 = Ok (o2, to_path t, to_vels t) /\
    plotArrivalTimesPath (to_grid t) (to_path t) = Ok (to_image t).

(** the part of it before the path: the grid [r] compute() leaves behind *)
Definition computed fuel (p : planner N) w h (img : Z -> Z -> N) (r : grid N) : Prop :=
  exists g o g1 o1, loadMapFromImg w h img empty_grid = Ok g /\
    (if pl_star p then star_ready (pl_heap p) (f2_heur (pl_obj p)) (nofZ (-1)) g [u32 (30 + 20 * w)] (u32 (375 + 280 * w)) = Ok (o, g1)
     else fm2_ready (pl_heap p) (nofZ (-1)) g [u32 (30 + 20 * w)] (u32 (375 + 280 * w)) = Ok (o, g1)) /\
    (if pl_star p then fm2star_compute (pl_heap p) fuel o g1 else fm2_compute (pl_heap p) fuel o g1) = Ok (o1, r).

Lemma planned_computed fuel pfuel p w h img t : planned fuel pfuel p w h img t -> computed fuel p w h img (to_grid t).
Proof. intros (g & o & g1 & o1 & o2 & A & B & C & _). exists g, o, g1, o1. auto. Qed.
Lemma computed_once fuel p w h img r r' : computed fuel p w h img r -> computed fuel p w h img r' -> r = r'.
Proof.
  intros (g & o & g1 & o1 & A & B & C) (g' & o' & g1' & o1' & A' & B' & C'). assert (g = g') by congruence. subst g'.
  assert (o = o' /\ g1 = g1') as [<- <-] by (destruct (pl_star p); split; congruence). destruct (pl_star p); congruence.
Qed.

(** ** loading: only the leaf size of the grid loaded into matters *)
Definition sameish (a b : grid N * list Z) : Prop :=
  g_sh (fst a) = g_sh (fst b) /\ g_leaf (fst a) = g_leaf (fst b) /\ g_cells (fst a) = g_cells (fst b) /\ g_clean (fst a) = g_clean (fst b) /\ snd a = snd b.

Lemma load_cell_sameish a b iv : sameish a b ->
  match load_cell a iv, load_cell b iv with Ok a', Ok b' => sameish a' b' | Fail e, Fail e' => e = e' | _, _ => False end.
Proof.
  destruct a as [ga oa], b as [gb ob], iv as [i v]. unfold sameish. cbn [fst snd]. intros (A & B & C & D & ->). unfold load_cell, setVelocity, updCell.
  assert (Eg : getCell gb i = getCell ga i) by (unfold getCell; rewrite C; reflexivity).
  rewrite Eg. destruct (getCell ga i) as [c|e]; cbn [bind]; [|reflexivity].
  match goal with |- context [getCell (with_cells ga ?l) i] => assert (E2 : getCell (with_cells ga l) i = vget l i) by reflexivity end.
  rewrite <- C. unfold getCell. cbn [with_cells g_cells].
  destruct (vget (lset (g_cells ga) (Z.to_nat i) _) i) as [c'|e]; cbn [bind]; [|reflexivity]. cbn [fst snd with_cells g_sh g_leaf g_cells g_clean]. auto.
Qed.

Lemma load_leaf w h img (g g' : grid N) : g_leaf g = g_leaf g' -> loadMapFromImg w h img g = loadMapFromImg w h img g'.
Proof.
  intros HL. unfold loadMapFromImg.
  assert (K : forall l a b, sameish a b ->
    match foldM (fun go xy => i <- img_index w h (fst xy) (snd xy) ;; load_cell go (i, ndiv (img (fst xy) (snd xy)) (nofZ 255))) l a,
          foldM (fun go xy => i <- img_index w h (fst xy) (snd xy) ;; load_cell go (i, ndiv (img (fst xy) (snd xy)) (nofZ 255))) l b with
    | Ok a', Ok b' => sameish a' b' | Fail e, Fail e' => e = e' | _, _ => False end).
  { induction l as [|xy l IH]; intros a b Hab; cbn [foldM]; [exact Hab|].
    destruct (img_index w h (fst xy) (snd xy)) as [i|e]; cbn [bind]; [|reflexivity].
    pose proof (load_cell_sameish a b (i, ndiv (img (fst xy) (snd xy)) (nofZ 255)) Hab) as Hs.
    destruct (load_cell a _) as [a'|e], (load_cell b _) as [b'|e']; cbn [bind]; try contradiction; [apply IH; exact Hs|exact Hs]. }
  match goal with |- bind (foldM _ ?l ?a) _ = bind (foldM _ _ ?b) _ => specialize (K l a b) end.
  assert (Hab : sameish (resize g [w; h], []) (resize g' [w; h], [])).
  { unfold sameish, resize. cbn [fst snd g_sh g_leaf g_cells g_clean]. rewrite HL. auto. }
  specialize (K Hab). destruct (foldM _ _ (resize g [w; h], [])) as [[g1 o1]|e], (foldM _ _ (resize g' [w; h], [])) as [[g2 o2]|e']; cbn [bind]; try contradiction.
  - destruct K as (A & B & C & D & E). cbn [fst snd] in *. subst o2. unfold setOccupiedCells. rewrite A, B, C, D. reflexivity.
  - congruence.
Qed.

Lemma loaded_leaf w h img (g g1 : grid N) : loadMapFromImg w h img g = Ok g1 -> g_leaf g1 = g_leaf g.
Proof.
  unfold loadMapFromImg. intros H. invb. destruct x as [g2 obs]. injection H as <-. cbn [setOccupiedCells g_leaf].
  assert (K : (fun go : grid N * list Z => g_leaf (fst go) = g_leaf g) (g2, obs)); [|exact K].
  refine (foldM_inv_partial (fun go : grid N * list Z => g_leaf (fst go) = g_leaf g) _ _ _ _ _ _ E); [reflexivity|].
  intros [ga oa] xy [gb ob] _ Ha Hs. cbn [fst] in *. invb. unfold load_cell in Hs. invb.
  match goal with H : setVelocity _ _ _ = Ok _ |- _ => apply updCell_fields in H; destruct H as (_ & -> & _) end. exact Ha.
Qed.

(** ** the leaf size survives a turn *)
Lemma clean_leaf (g : grid N) : g_leaf (clean g) = g_leaf g. Proof. unfold clean. destruct (g_clean g); reflexivity. Qed.
Lemma fmm_compute_leaf (HO : HeapOps N) fuel (o : fmm_obj HO) g o' g' : fmm_compute HO fuel o g = Ok (o', g') -> g_leaf g' = g_leaf g.
Proof.
  unfold fmm_compute. intros H. invb. destruct x as [o1 g1]. invb. destruct x0 as [st log]. injection H as _ <-.
  assert (K1 : g_leaf g1 = g_leaf g).
  { destruct (sv_setup (fo_s o)); [injection E as _ <-; reflexivity|]. unfold fmm_setup in E.
    destruct (solver_setup (fo_s o) g) as [[s1 g2]|] eqn:Es; [|discriminate]. cbn [bind] in E. destruct (solver_setup_ok _ _ _ _ Es) as (_ & -> & _).
    destruct (fmm_setHeuristics HO _ _ _) as [o2|]; [|discriminate]. cbn [bind] in E. destruct (goal_of s1) as [k|]; [|discriminate]. cbn [bind] in E.
    destruct (fo_strat o2); [injection E as _ <-; reflexivity| |]; destruct (s32 k =? -1); injection E as _ <-; reflexivity. }
  assert (K2 : frame (fun _ => True) g1 (fs_g st)) by (eapply fmm_run_frame; [|exact E1]; auto). destruct K2 as (_ & K2 & _). congruence.
Qed.

Lemma setup_leaf (HO : HeapOps N) (o : fm2_obj HO) g o' g' : fm2_setup HO o g = Ok (o', g') -> g_leaf g' = g_leaf g.
Proof.
  unfold fm2_setup. destruct (solver_setup (f2_s o) g) as [[s1 g1]|] eqn:Es; [|discriminate]. cbn [bind]. destruct (solver_setup_ok _ _ _ _ Es) as (_ & -> & _).
  destruct (1 <? _); [discriminate|]. destruct (f2_sources o); [discriminate|]. intros E. injection E as _ <-. reflexivity.
Qed.
Lemma internal_leaf (HO : HeapOps N) setup star fuel (o : fm2_obj HO) g o' g' :
  (forall o g o' g', setup o g = Ok (o', g') -> g_leaf g' = g_leaf g) -> fm2_internal HO setup star fuel o g = Ok (o', g') -> g_leaf g' = g_leaf g.
Proof.
  intros HS. unfold fm2_internal. intros H.
  destruct (if sv_setup (f2_s o) then Ok (o, g) else setup o g) as [[o1 g1]|] eqn:E1; [|discriminate]. cbn [bind] in H.
  assert (K1 : g_leaf g1 = g_leaf g) by (destruct (sv_setup (f2_s o)); [injection E1 as _ <-; reflexivity|exact (HS _ _ _ _ E1)]).
  destruct (fm2_velocities HO fuel o1 g1) as [[o2 g2]|] eqn:E2; [|discriminate]. cbn [bind] in H.
  assert (K2 : g_leaf g2 = g_leaf g1).
  { unfold fm2_velocities in E2. cbv zeta in E2.
    destruct (fmm_compute HO fuel (fmm_setPoints HO (f2_inner o1) (f2_sources o1) (-1)) (setClean g1 true)) as [[i1 g3]|e] eqn:E3; cbn [bind] in E2; [|discriminate E2].
    apply fmm_compute_leaf in E3. injection E2 as _ <-. destruct (g_cells g3); exact E3. }
  destruct (goal_of (f2_s o2)); [|discriminate]. cbn [bind] in H. destruct (vget _ 0); [|discriminate]. cbn [bind] in H.
  destruct (if star then _ else _) as [in2|]; [|discriminate]. cbn [bind] in H.
  destruct (fmm_compute HO fuel in2 g2) as [[in3 g3]|] eqn:E4; [|discriminate]. cbn [bind] in H. apply fmm_compute_leaf in E4. injection H as _ <-. cbn [setClean g_leaf]. congruence.
Qed.
Lemma env_leaf (HO : HeapOps N) (o : fm2_obj HO) g o' g' : fm2_setEnvironment HO o (Some g) = Ok (o', g') -> g_leaf g' = g_leaf g.
Proof. unfold fm2_setEnvironment. cbn [setEnvironment bind]. unfold fmm_setEnvironment. cbn [setEnvironment bind]. intros E. injection E as _ <-. rewrite !clean_leaf. reflexivity. Qed.

Lemma star_setup_leaf (HO : HeapOps N) (o : fm2_obj HO) g o' g' : fm2star_setup HO o g = Ok (o', g') -> g_leaf g' = g_leaf g.
Proof.
  unfold fm2star_setup. destruct (fm2_setup HO o g) as [[o1 g1]|] eqn:E; [|discriminate]. cbn [bind]. destruct (goal_of (f2_s o1)); [|discriminate]. cbn [bind].
  destruct (_ =? _); [discriminate|]. intros K. injection K as _ <-. exact (setup_leaf _ _ _ _ _ E).
Qed.

Lemma turn_leaf fuel pfuel p w h img (g : grid N) t : fm2_turn fuel pfuel p w h img g = Ok t -> g_leaf (to_grid t) = g_leaf g.
Proof.
  unfold fm2_turn. intros H. destruct (loadMapFromImg w h img g) as [g0|] eqn:E0; [|discriminate]. cbn [bind] in H. apply loaded_leaf in E0.
  destruct (fm2_setEnvironment (pl_heap p) (pl_obj p) (Some g0)) as [[o g1]|] eqn:E1; [|discriminate]. cbn [bind] in H. apply env_leaf in E1.
  destruct (pl_points p o g1 _ _) as [o2|]; [|discriminate]. cbn [bind] in H.
  destruct (if pl_star p then _ else _) as [[o3 g3]|] eqn:E3; [|discriminate]. cbn [bind] in H.
  assert (K : g_leaf g3 = g_leaf g1).
  { destruct (pl_star p); [unfold fm2star_compute in E3; eapply internal_leaf; [apply star_setup_leaf|exact E3]|unfold fm2_compute in E3; eapply internal_leaf; [apply setup_leaf|exact E3]]. }
  destruct (fm2_computePath pfuel o3 g3 [] [] n1) as [[[o4 path] vel]|]; [|discriminate]. cbn [bind] in H.
  destruct (plotArrivalTimesPath g3 path) as [im|]; [|discriminate]. injection H as <-. cbn [to_grid]. congruence.
Qed.

(** a turn depends on the grid it starts from through the leaf size only *)
Lemma turn_any fuel pfuel p w h img (g g' : grid N) : g_leaf g = g_leaf g' -> fm2_turn fuel pfuel p w h img g = fm2_turn fuel pfuel p w h img g'.
Proof. intros HL. unfold fm2_turn. rewrite (load_leaf w h img g g' HL). reflexivity. Qed.

(** ** a turn is what the planner computes *)
Definition new_planner (p : planner N) : Prop :=
  if pl_star p then pl_obj p = fm2star_new (pl_heap p) (f2_heur (pl_obj p)) (nofZ (-1)) else pl_obj p = fm2_new (pl_heap p) (nofZ (-1)).

Lemma planners_new p : In p (@fm2_planners N) -> new_planner p.
Proof. unfold fm2_planners. cbn [In]. intros H. repeat (destruct H as [<-|H]; [reflexivity|]). contradiction. Qed.

Lemma map_coords w h x y : 1 <= w -> 1 <= h -> w * h < 4294967296 -> 0 <= x < 4294967296 -> 0 <= y ->
  coord2idx (mk_shape [w; h]) [x; y] = Ok (u32 (x + y * w)).
Proof.
  intros Hw Hh Hlt Hx Hy. rewrite mk_shape_eq; [|repeat constructor; lia|cbn; lia]. unfold coord2idx. cbn -[Z.mul Z.add u32]. rewrite Z.mul_1_l.
  f_equal. unfold u32. rewrite Zplus_mod_idemp_r. reflexivity.
Qed.

Lemma turn_planned fuel pfuel p w h img t : 1 <= w -> 1 <= h -> w * h < 2147483648 -> new_planner p ->
  (fm2_turn fuel pfuel p w h img empty_grid = Ok t <-> planned fuel pfuel p w h img t).
Proof.
  intros Hw Hh Hwh Hn. unfold planned, fm2_turn. destruct (C43_image_is_flipped empty_grid w h img Hw Hh Hwh) as (g & Eg & Hg & _ & _ & Hcl & _).
  rewrite Eg. cbn [bind]. unfold star_ready, fm2_ready. destruct p as [HO obj star]. unfold new_planner in Hn. cbn [pl_heap pl_obj pl_star] in *.
  assert (Henv : forall o0 : fm2_obj HO, exists o, fm2_setEnvironment HO o0 (Some g) = Ok (o, g) /\ sv_grid (f2_s o) = GSet).
  { intros o0. unfold fm2_setEnvironment, fmm_setEnvironment. cbn [setEnvironment bind]. assert (Ec : clean g = g) by (unfold clean; rewrite Hcl; reflexivity).
    rewrite !Ec. eexists. split; reflexivity. }
  destruct (Henv obj) as (o & Ee & Eset). rewrite Ee. cbn [bind]. unfold pl_points. cbn [pl_heap pl_star]. rewrite Eset, (proj1 Hg), !map_coords by lia. cbn [bind].
  generalize dependent (u32 (30 + 20 * w)). generalize (u32 (375 + 280 * w)). intros k i.
  destruct star.
  - destruct (fm2star_setPoints HO o g [i] k) as [q|e] eqn:Eq; cbn [bind].
    + destruct (fm2star_compute HO fuel q g) as [[o1 g1]|e] eqn:Ecp; cbn [bind].
      * destruct (fm2_computePath pfuel o1 g1 [] [] n1) as [[[o2 path] vel]|e] eqn:Epa; cbn [bind].
        -- destruct (plotArrivalTimesPath g1 path) as [im|e] eqn:Epl; cbn [bind].
           ++ split.
              ** intros E. injection E as <-. exists g, q, g, o1, o2. rewrite <- Hn, Ee. cbn [bind to_grid to_path to_vels to_image]. rewrite Eq. auto.
              ** intros (g' & q' & g1' & o1' & o2' & E1 & E2 & E3 & E4 & E5). injection E1 as <-. rewrite <- Hn, Ee in E2. cbn [bind] in E2. rewrite Eq in E2. injection E2 as <- <-.
                 rewrite Ecp in E3. injection E3 as <- Eg1. rewrite <- Eg1 in *. rewrite Epa in E4. injection E4 as _ Epath Evel. rewrite <- Epath in E5. rewrite Epl in E5. injection E5 as Eim.
                 destruct t. cbn in *. congruence.
           ++ split; [discriminate|]. intros (g' & q' & g1' & o1' & o2' & E1 & E2 & E3 & E4 & E5). injection E1 as <-. rewrite <- Hn, Ee in E2. cbn [bind] in E2. rewrite Eq in E2. injection E2 as <- <-.
              rewrite Ecp in E3. injection E3 as <- Eg1. rewrite <- Eg1 in *. rewrite Epa in E4. injection E4 as _ Epath _. rewrite <- Epath in E5. congruence.
        -- split; [discriminate|]. intros (g' & q' & g1' & o1' & o2' & E1 & E2 & E3 & E4 & E5). injection E1 as <-. rewrite <- Hn, Ee in E2. cbn [bind] in E2. rewrite Eq in E2. injection E2 as <- <-.
           rewrite Ecp in E3. injection E3 as <- Eg1. rewrite <- Eg1 in *. congruence.
      * split; [discriminate|]. intros (g' & q' & g1' & o1' & o2' & E1 & E2 & E3 & E4 & E5). injection E1 as <-. rewrite <- Hn, Ee in E2. cbn [bind] in E2. rewrite Eq in E2. injection E2 as <- <-. congruence.
    + split; [discriminate|]. intros (g' & q' & g1' & o1' & o2' & E1 & E2 & _). injection E1 as <-. rewrite <- Hn, Ee in E2. cbn [bind] in E2. rewrite Eq in E2. discriminate.
  - cbn [bind]. set (q := fm2_setPoints HO o [i] k).
    destruct (fm2_compute HO fuel q g) as [[o1 g1]|e] eqn:Ecp; cbn [bind].
    + destruct (fm2_computePath pfuel o1 g1 [] [] n1) as [[[o2 path] vel]|e] eqn:Epa; cbn [bind].
      * destruct (plotArrivalTimesPath g1 path) as [im|e] eqn:Epl; cbn [bind].
        -- split.
           ++ intros E. injection E as <-. exists g, q, g, o1, o2. rewrite <- Hn, Ee. cbn [bind to_grid to_path to_vels to_image]. auto.
           ++ intros (g' & q' & g1' & o1' & o2' & E1 & E2 & E3 & E4 & E5). injection E1 as <-. rewrite <- Hn, Ee in E2. cbn [bind] in E2. fold q in E2. injection E2 as <- <-.
              rewrite Ecp in E3. injection E3 as <- Eg1. rewrite <- Eg1 in *. rewrite Epa in E4. injection E4 as _ Epath Evel. rewrite <- Epath in E5. rewrite Epl in E5. injection E5 as Eim.
              destruct t. cbn in *. congruence.
        -- split; [discriminate|]. intros (g' & q' & g1' & o1' & o2' & E1 & E2 & E3 & E4 & E5). injection E1 as <-. rewrite <- Hn, Ee in E2. cbn [bind] in E2. fold q in E2. injection E2 as <- <-.
           rewrite Ecp in E3. injection E3 as <- Eg1. rewrite <- Eg1 in *. rewrite Epa in E4. injection E4 as _ Epath _. rewrite <- Epath in E5. congruence.
      * split; [discriminate|]. intros (g' & q' & g1' & o1' & o2' & E1 & E2 & E3 & E4 & E5). injection E1 as <-. rewrite <- Hn, Ee in E2. cbn [bind] in E2. fold q in E2. injection E2 as <- <-.
        rewrite Ecp in E3. injection E3 as <- Eg1. rewrite <- Eg1 in *. congruence.
    + split; [discriminate|]. intros (g' & q' & g1' & o1' & o2' & E1 & E2 & E3 & E4 & E5). injection E1 as <-. rewrite <- Hn, Ee in E2. cbn [bind] in E2. fold q in E2. injection E2 as <- <-. congruence.
Qed.

Lemma turns_iff fuel pfuel w h img : forall ps (g : grid N) ts, g_leaf g = g_leaf empty_grid ->
  (fm2_turns fuel pfuel ps w h img g = Ok ts <-> Forall2 (fun p t => fm2_turn fuel pfuel p w h img empty_grid = Ok t) ps ts).
Proof.
  induction ps as [|p ps IH]; intros g ts HL; cbn [fm2_turns].
  - split; intros H; [injection H as <-; constructor|inversion H; reflexivity].
  - rewrite (turn_any fuel pfuel p w h img g empty_grid HL). destruct (fm2_turn fuel pfuel p w h img empty_grid) as [t|e] eqn:Et; cbn [bind].
    + pose proof (turn_leaf _ _ _ _ _ _ _ _ Et) as HL2. specialize (IH (to_grid t)). destruct (fm2_turns fuel pfuel ps w h img (to_grid t)) as [l|e] eqn:El; cbn [bind].
      * split; intros H; [injection H as <-; constructor; [exact Et|apply (IH l HL2); reflexivity]|]. inversion H as [|p' t' ps' ts' A B]; subst. rewrite Et in A. injection A as <-.
        apply (IH ts' HL2) in B. injection B as <-. reflexivity.
      * split; [discriminate|]. intros H. inversion H as [|p' t' ps' ts' A B]; subst. rewrite Et in A. injection A as <-. apply (IH ts' HL2) in B. discriminate.
    + split; [discriminate|]. intros H. inversion H; subst. congruence.
Qed.

(** ** the command line *)
(** [-map file] is on the command line; the first [-map] counts *)
Definition map_option (argv : list text) (file : text) : Prop :=
  exists i, first_at argv (str "-map") i /\ nth_error argv (Z.to_nat (i + 1)) = Some file.

Lemma with_map fuel pfuel argv image file : map_option argv file ->
  test_fm2 fuel pfuel argv image = match image file with
    | None => Fail abort
    | Some (w, h, img) => ts <- fm2_turns fuel pfuel (fm2_planners (N := N)) w h img empty_grid ;; Ok (0, ts)
    end.
Proof.
  intros [i [Hf Hn]]. unfold test_fm2. pose proof (first_at_range _ _ _ Hf) as Hr.
  assert (Z.to_nat (i + 1) < List.length argv)%nat by (apply nth_error_Some; congruence).
  destruct (Z.leb_spec (Z.of_nat (List.length argv)) 2); [lia|].
  rewrite (proj1 (C48_scalar (fun a => a) argv (str "-map") []) i file Hf Hn). reflexivity.
Qed.

(** C112: fewer than three arguments (the program's name counts): status 1.  No file behind
    [-map], or one that is not readable as an image: the program is aborted *)
Theorem C112_refusals : forall fuel pfuel argv image,
  ((List.length argv <= 2)%nat -> test_fm2 (N := N) fuel pfuel argv image = Fail (Exit 1)) /\
  ((3 <= List.length argv)%nat -> image [] = None -> nowhere argv (str "-map") \/ first_at argv (str "-map") (Z.of_nat (List.length argv) - 1) ->
     test_fm2 (N := N) fuel pfuel argv image = Fail abort) /\
  (forall file, map_option argv file -> image file = None -> test_fm2 (N := N) fuel pfuel argv image = Fail abort).
Proof.
  intros fuel pfuel argv image. split; [|split].
  - intros H. unfold test_fm2. destruct (Z.leb_spec (Z.of_nat (List.length argv)) 2); [reflexivity|lia].
  - intros H3 Him Hm. unfold test_fm2. destruct (Z.leb_spec (Z.of_nat (List.length argv)) 2); [lia|].
    destruct (C48_scalar (fun a : text => a) argv (str "-map") []) as (_ & S2 & S3).
    destruct Hm as [Hm|Hm]; [rewrite (S3 Hm); cbn [bind]; rewrite Him; reflexivity|].
    rewrite (S2 _ Hm); [cbn [bind]; rewrite Him; reflexivity|]. apply nth_error_None. lia.
  - intros file Hm Him. rewrite (with_map _ _ _ _ _ Hm), Him. reflexivity.
Qed.

(** C112: on a map that can be read, the program ends, with status 0, exactly when each of its
    nine planners ends on this map alone, and then every planner's grid, path, velocities and
    picture are those it computes alone: none is influenced by the ones before it *)
Theorem C112_each_result_is_the_planners_own : forall fuel pfuel argv image file w h img,
  map_option argv file -> image file = Some (w, h, img) -> 1 <= w -> 1 <= h -> w * h < 2147483648 ->
  forall st ts, test_fm2 fuel pfuel argv image = Ok (st, ts) <->
  st = 0 /\ Forall2 (fun p t => planned fuel pfuel p w h img t)
    [pFM2 DaryHeap; pFM2 FibHeap; pFM2 StdHeap;
     pFM2Star DaryHeap DISTANCE; pFM2Star DaryHeap TIME; pFM2Star FibHeap TIME; pFM2Star FibHeap DISTANCE; pFM2Star StdHeap TIME; pFM2Star StdHeap DISTANCE] ts.
Proof.
  intros fuel pfuel argv image file w h img Hm Him Hw Hh Hwh st ts. rewrite (with_map _ _ _ _ _ Hm), Him.
  fold (fm2_planners (N := N)). 
  assert (K : forall l, Forall2 (fun p t => fm2_turn fuel pfuel p w h img empty_grid = Ok t) fm2_planners l <-> Forall2 (fun p t => planned fuel pfuel p w h img t) fm2_planners l).
  { assert (G : forall ps, (forall p, In p ps -> new_planner p) -> forall l, Forall2 (fun p t => fm2_turn fuel pfuel p w h img empty_grid = Ok t) ps l <-> Forall2 (fun p t => planned fuel pfuel p w h img t) ps l).
    { induction ps as [|p ps IH]; intros Hp l; [split; intros H; inversion H; constructor|].
      split; intros H; inversion H as [|p' t' ps' ts' A B]; subst; (constructor; [apply (turn_planned fuel pfuel p w h img _ Hw Hh Hwh (Hp p (or_introl eq_refl))); exact A|apply IH; [intros q Hq; apply Hp; right; exact Hq|exact B]]). }
    apply G. exact planners_new. }
  rewrite <- K, <- (turns_iff fuel pfuel w h img fm2_planners empty_grid ts eq_refl).
  destruct (fm2_turns fuel pfuel fm2_planners w h img empty_grid) as [l|e]; cbn [bind].
  - split; [intros E; injection E as <- <-; auto|intros [-> E]; injection E as <-; reflexivity].
  - split; [discriminate|intros [_ E]; discriminate].
Qed.

(** ** the start and the goal *)
Lemma first_fails fuel pfuel argv image file w h img (g : grid N) e : map_option argv file -> image file = Some (w, h, img) -> 1 <= w -> 1 <= h -> w * h < 2147483648 ->
  loadMapFromImg w h img empty_grid = Ok g ->
  (exists o, fm2_ready DaryHeap (nofZ (-1)) g [u32 (30 + 20 * w)] (u32 (375 + 280 * w)) = Ok (o, g) /\ fm2_compute DaryHeap fuel o g = Fail e) ->
  test_fm2 fuel pfuel argv image = Fail e.
Proof.
  intros Hm Him Hw Hh Hwh Hg [o [Ho Hc]]. rewrite (with_map _ _ _ _ _ Hm), Him. unfold fm2_planners. cbn [fm2_turns].
  destruct (C43_image_is_flipped empty_grid w h img Hw Hh Hwh) as (g' & Eg & Hgok & _ & _ & Hcl & _). assert (g' = g) by congruence. subst g'.
  assert (Ec : clean g = g) by (unfold clean; rewrite Hcl; reflexivity).
  unfold fm2_turn at 1. rewrite Hg. cbn [bind pFM2 pl_heap pl_obj pl_star]. unfold fm2_ready in Ho.
  assert (Henv : exists o0, fm2_setEnvironment DaryHeap (fm2_new (N := N) DaryHeap (nofZ (-1))) (Some g) = Ok (o0, g) /\ sv_grid (f2_s o0) = GSet).
  { unfold fm2_setEnvironment, fmm_setEnvironment. cbn [setEnvironment bind]. rewrite !Ec. eexists. split; reflexivity. }
  destruct Henv as (o0 & Ee & Eset). rewrite Ee in Ho |- *. cbn [bind] in Ho |- *.
  assert (Eo : fm2_setPoints DaryHeap o0 [u32 (30 + 20 * w)] (u32 (375 + 280 * w)) = o) by congruence. clear Ho. subst o.
  unfold pl_points. cbn [pFM2 pl_star pl_heap]. rewrite Eset, (proj1 Hgok), !map_coords by lia. cbn [bind]. 
  revert Hc. generalize (u32 (30 + 20 * w)) (u32 (375 + 280 * w)). intros i k Hc. cbn [bind].
  match goal with |- context [fm2_compute ?a ?b ?c ?d] => assert (Hx : fm2_compute a b c d = Fail e) by (exact Hc); rewrite Hx end. reflexivity.
Qed.

(** C112: start and goal are the cells with indices 30+20w and 375+280w of a map w cells wide:
    (30,20) and (375,280) if the map is large enough.  Beyond the last cell they are undefined
    behaviour.  The program exits with status 1 if start or goal is an obstacle and, with both
    free, if the map has no obstacle or a single one *)
Theorem C112_start_and_goal : forall fuel pfuel argv image file w h img (g : grid N),
  map_option argv file -> image file = Some (w, h, img) -> 1 <= w -> 1 <= h -> w * h < 2147483648 -> 375 + 280 * w < 2147483648 ->
  loadMapFromImg w h img empty_grid = Ok g ->
  let s := 30 + 20 * w in let goal := 375 + 280 * w in let program := test_fm2 fuel pfuel argv image in
  (w * h <= s -> program = Fail UB) /\
  (obstacle g s -> program = Fail (Exit 1)) /\
  (free g s -> w * h <= goal -> program = Fail UB) /\
  (free g s -> obstacle g goal -> program = Fail (Exit 1)) /\
  (free g s -> free g goal -> (forall i, ~ obstacle g i) -> program = Fail (Exit 1)) /\
  (free g s -> free g goal -> (exists j, obstacle g j /\ forall i, obstacle g i -> i = j) -> program = Fail (Exit 1)) /\
  (376 <= w -> 281 <= h -> cell_number [w; h] [30; 20] = s /\ cell_number [w; h] [375; 280] = goal).
Proof.
  intros fuel pfuel argv image file w h img g Hm Him Hw Hh Hwh Hk Hg s goal program.
  assert (Es : u32 (30 + 20 * w) = s) by (apply u32_small; unfold s; lia). assert (Ek : u32 (375 + 280 * w) = goal) by (apply u32_small; unfold goal; lia).
  destruct (C43_image_is_flipped empty_grid w h img Hw Hh Hwh) as (g' & Eg & Hgok & _ & _ & Hcl & _ & Hobs). assert (g' = g) by congruence. subst g'. clear Eg.
  assert (Hlen : Z.of_nat (List.length (g_cells g)) = w * h) by (destruct Hgok as [_ ->]; cbn; lia).
  assert (F : forall e, (exists o, fm2_ready DaryHeap (nofZ (-1)) g [s] goal = Ok (o, g) /\ fm2_compute DaryHeap fuel o g = Fail e) -> program = Fail e).
  { intros e He. apply (first_fails fuel pfuel argv image file w h img g e Hm Him Hw Hh Hwh Hg). rewrite Es, Ek. exact He. }
  assert (Es32 : s32 s = s) by (unfold s32; cbv zeta; rewrite (u32_small s) by (unfold s; lia); destruct (Z.ltb_spec s 2147483648); unfold s in *; lia).
  assert (Ek32 : s32 goal = goal) by (unfold s32; cbv zeta; rewrite (u32_small goal) by (unfold goal; lia); destruct (Z.ltb_spec goal 2147483648); unfold goal in *; lia).
  assert (Euk : u32 goal = goal) by (apply u32_small; unfold goal; lia).
  assert (Hsan : forall e, (err <- sanityChecks (mkSolver GSet false [s] (Some goal)) g ;; if negb (err =? 0) then Fail (Exit 1) else Ok tt) = Fail e -> program = Fail e).
  { intros e He. apply F. eexists. split; [rewrite fm2_ready_eq by exact Hcl; reflexivity|]. rewrite Euk. unfold fm2_compute, fm2_internal. cbn [f2_s sv_setup]. unfold fm2_setup, solver_setup. cbn [f2_s].
    destruct (sanityChecks (mkSolver GSet false [s] (Some goal)) g) as [err|e']; cbn [bind] in He |- *; [|injection He as ->; reflexivity].
    destruct (negb (err =? 0)); [injection He as <-; reflexivity|discriminate]. }
  assert (Hpass : free g s -> free g goal -> solver_setup (mkSolver GSet false [s] (Some (u32 goal))) g = Ok (mkSolver GSet true [s] (Some goal), setClean g false)).
  { intros [cs [Hs Os]] [cg [Hgo Og]]. rewrite Euk. unfold solver_setup, sanityChecks. cbn [sv_grid sv_init goal_of sv_goal]. rewrite Hcl. cbn [negb]. rewrite Hs. cbn [bind]. rewrite Os.
    rewrite Ek32. destruct (Z.eqb_spec goal (-1)); [unfold goal in *; lia|]. cbn [negb]. rewrite Hgo. cbn [bind]. rewrite Og.
    cbn [existsb]. rewrite ?Es32. destruct (Z.eqb_spec goal s); [unfold goal, s in *; lia|]. reflexivity. }
  split; [|split; [|split; [|split; [|split; [|split]]]]].
  - intros Hout. apply Hsan. unfold sanityChecks. cbn [sv_grid sv_init]. rewrite Hcl. cbn [negb]. rewrite (getCell_out g s) by lia. reflexivity.
  - intros [c [Hc Ho]]. apply Hsan. unfold sanityChecks. cbn [sv_grid sv_init]. rewrite Hcl. cbn [negb]. rewrite Hc. cbn [bind]. rewrite Ho. reflexivity.
  - intros [c [Hc Ho]] Hout. apply Hsan. unfold sanityChecks. cbn [sv_grid sv_init goal_of sv_goal]. rewrite Hcl. cbn [negb]. rewrite Hc. cbn [bind]. rewrite Ho, Ek32.
    destruct (Z.eqb_spec goal (-1)); [unfold goal in *; lia|]. cbn [negb]. rewrite (getCell_out g goal) by lia. reflexivity.
  - intros [c [Hc Ho]] [ck [Hck Hok]]. apply Hsan. unfold sanityChecks. cbn [sv_grid sv_init goal_of sv_goal]. rewrite Hcl. cbn [negb]. rewrite Hc. cbn [bind]. rewrite Ho, Ek32.
    destruct (Z.eqb_spec goal (-1)); [unfold goal in *; lia|]. cbn [negb]. rewrite Hck. cbn [bind]. rewrite Hok. reflexivity.
  - intros Hs Hgo Hno. assert (Eo : g_obs g = []) by (destruct (g_obs g) as [|j l] eqn:E; [reflexivity|]; exfalso; apply (Hno j); apply (proj2 Hobs); rewrite E; left; reflexivity).
    destruct (C41_refusals DaryHeap (nofZ (-1)) g [s] goal fuel _ _ Hcl (Hpass Hs Hgo) (or_introl Eo)) as (o & A & _ & B). apply F. exists o. auto.
  - intros Hs Hgo [j [Hj Hu]].
    assert (Eo : g_obs g = [j]).
    { destruct Hobs as [Hnd Hin]. assert (Hall : forall i, In i (g_obs g) -> i = j) by (intros i Hi; apply Hu, Hin, Hi). assert (Hj' : In j (g_obs g)) by (apply Hin; exact Hj).
      destruct (g_obs g) as [|a [|b l]]; [destruct Hj'|f_equal; apply Hall; left; reflexivity|].
      exfalso. inversion Hnd as [|? ? Hn _]; subst. apply Hn. rewrite (Hall a), (Hall b) by (cbn; auto). left. reflexivity. }
    destruct (C41_single_obstacle_exits DaryHeap (nofZ (-1)) g j s goal fuel Hcl Eo Hj Hs Hgo ltac:(rewrite Es32, Ek32; unfold s, goal; lia) Euk ltac:(rewrite Ek32; unfold goal; lia)) as (o & A & _ & B).
    apply F. exists o. auto.
  - intros. cbn -[Z.mul Z.add]. unfold s, goal. split; ring.
Qed.
End C112.

(** ** what the answers mean *)
Lemma small_index w h : 376 <= w <= 65536 -> 281 <= h -> w * h < 2147483648 ->
  u32 (30 + 20 * w) = 30 + 20 * w /\ u32 (375 + 280 * w) = 375 + 280 * w /\ 0 <= 30 + 20 * w < w * h /\ 0 <= 375 + 280 * w < w * h.
Proof. intros. split; [apply u32_small; lia|]. split; [apply u32_small; lia|]. split; nia. Qed.

(** C112: with exact arithmetic and the d-ary or the Fibonacci heap, on a map with two obstacles
    or more where start and goal are free: compute() ends; the velocities are the normalised
    times of a wave from the obstacles; the goal has time 0; FM2 gives the start the time of an
    Eikonal solution from the goal over these velocities; FM2-star, with either strategy, gives
    it a time exactly if a path joins it to the goal.  If the planner's turn in the program
    ends, this is the grid it leaves *)
Theorem C112_exact_answers : forall fuel pfuel (p : planner XR) w h (img : Z -> Z -> XR) (g : grid XR),
  (exists HO, (HO = DaryHeap \/ HO = FibHeap) /\ (p = pFM2 HO \/ p = pFM2Star HO TIME \/ p = pFM2Star HO DISTANCE)) ->
  376 <= w <= 65536 -> 281 <= h <= 65536 -> w * h < 2147483648 -> loadMapFromImg w h img empty_grid = Ok g -> fm2_map [w; h] g ->
  let s := 30 + 20 * w in let goal := 375 + 280 * w in free g s -> free g goal -> w * h < Z.of_nat fuel ->
  exists r gv, computed fuel p w h img r /\ (forall t, planned fuel pfuel p w h img t -> to_grid t = r) /\
    velocity_map [w; h] g (-1) gv /\
    (forall i, 0 <= i < w * h -> exists c c', getCell gv i = Ok c /\ getCell r i = Ok c' /\ c_occ c' = c_occ c) /\
    times r goal = Some 0%R /\
    (if pl_star p then (exists x, times r s = Some x) <-> reachable [w; h] (fun i => In i [goal]) (free gv) s
     else exists T, solution [w; h] (eq goal) (free gv) (slow gv) (2 * Rmargin) T /\ times r s = T s).
Proof.
  intros fuel pfuel p w h img g [HO [HHO Hp]] Hw Hh Hwh Hg Hmap s goal Hs Hgo Hfuel.
  destruct (small_index w h Hw ltac:(lia) Hwh) as (Es & Ek & Hsr & Hkr).
  assert (HL : inhabited (HeapLaws HO)) by (destruct HHO as [->| ->]; constructor; [exact (DaryLaws XR_laws)|exact (FibLaws XR_laws)]). destruct HL as [HL].
  assert (Hne : s <> goal) by (unfold s, goal; lia). assert (Hbox : box_size [w; h] = w * h) by (cbn; ring).
  assert (Hmd : (-1)%R <> 0%R) by lra. rewrite <- Hbox in Hfuel |- *.
  assert (Hscs : in_box [w; h] [30; 20]) by (repeat constructor; lia). assert (Escs : cell_number [w; h] [30; 20] = s) by (unfold s; cbn -[Z.mul Z.add]; ring).
  assert (G : forall r gv, computed fuel p w h img r -> velocity_map [w; h] g (-1) gv /\
    (forall i, 0 <= i < box_size [w; h] -> exists c c', getCell gv i = Ok c /\ getCell r i = Ok c' /\ c_occ c' = c_occ c) /\ times r goal = Some 0%R /\
    (if pl_star p then (exists x, times r s = Some x) <-> reachable [w; h] (fun i => In i [goal]) (free gv) s
     else exists T, solution [w; h] (eq goal) (free gv) (slow gv) (2 * Rmargin) T /\ times r s = T s) ->
    exists r gv, computed fuel p w h img r /\ (forall t, planned fuel pfuel p w h img t -> to_grid t = r) /\ velocity_map [w; h] g (-1) gv /\
    (forall i, 0 <= i < box_size [w; h] -> exists c c', getCell gv i = Ok c /\ getCell r i = Ok c' /\ c_occ c' = c_occ c) /\ times r goal = Some 0%R /\
    (if pl_star p then (exists x, times r s = Some x) <-> reachable [w; h] (fun i => In i [goal]) (free gv) s
     else exists T, solution [w; h] (eq goal) (free gv) (slow gv) (2 * Rmargin) T /\ times r s = T s)).
  { intros r gv Hr H. exists r, gv. split; [exact Hr|]. split; [|exact H]. intros t Ht. exact (computed_once _ _ _ _ _ _ _ (planned_computed _ _ _ _ _ _ _ Ht) Hr). }
  destruct Hp as [->|Hp].
  - destruct (C40_fm2_computes HO HL [w; h] g s goal (-1) fuel Hmap Hs Hgo Hne Hmd Hfuel) as (q & g0 & q' & gv & r & A1 & A2 & A3 & A4 & A5 & A6 & _).
    apply (G r gv); [|auto]. exists g, (fm2_setPoints HO q [s] goal), g0, q'. cbn [pFM2 pl_star pl_heap]. split; [exact Hg|]. split; [|exact A2].
    rewrite Es, Ek. fold s goal. unfold fm2_ready. change (@nofZ XR (-1)) with (XFin (-1) : XR). rewrite A1. reflexivity.
  - assert (Hp' : exists st, p = pFM2Star HO st) by (destruct Hp as [->| ->]; eauto). clear Hp. destruct Hp' as [st ->].
    destruct (C80_star_computes HO HL [w; h] g s goal (-1) st fuel [30; 20] Hmap ltac:(cbn; lia) ltac:(repeat constructor; lia) Hs Hgo Hne Hmd Hfuel Hscs Escs)
      as (q & q' & gv & r & A1 & A2 & A3 & A4 & _ & A6 & A7 & _).
    apply (G r gv); [|auto]. exists g, q, g, q'. cbn [pFM2Star pl_star pl_heap pl_obj fm2star_new f2_heur]. split; [exact Hg|]. split; [|exact A2].
    rewrite Es, Ek. exact A1.
Qed.

(** C112: in doubles, FM2 with the d-ary or the Fibonacci heap: compute() ends; the velocities
    are those C85 describes, no cell of the map became or ceased to be an obstacle, the goal has
    time 0, and the start was reached exactly if a path of free cells joins it to the goal *)
Theorem C112_fm2_answers_in_doubles : forall fuel pfuel (p : planner F64) w h (img : Z -> Z -> F64) (g : grid F64) flo fhi,
  (p = pFM2 DaryHeap \/ p = pFM2 FibHeap) ->
  376 <= w <= 65536 -> 281 <= h <= 65536 -> w * h < 2147483648 -> loadMapFromImg w h img empty_grid = Ok g ->
  fm2_map64 [w; h] g -> within_resolution [w; h] g flo fhi ->
  let s := 30 + 20 * w in let goal := 375 + 280 * w in free g s -> free g goal -> w * h < Z.of_nat fuel ->
  exists r, computed fuel p w h img r /\ (forall t, planned fuel pfuel p w h img t -> to_grid t = r) /\
  velocities64 [w; h] g flo fhi r /\ (forall i, free r i <-> free g i) /\
  (exists d, time_is r goal d /\ denotes d 0) /\
  (exists c, getCell r s = Ok c /\ (c_state c = FROZEN <-> reachable [w; h] (eq goal) (free g) s)).
Proof.
  intros fuel pfuel p w h img g flo fhi Hp Hw Hh Hwh Hg Hmap HW s goal Hs Hgo Hfuel.
  destruct (small_index w h Hw ltac:(lia) Hwh) as (Es & Ek & Hsr & Hkr).
  assert (Hne : s <> goal) by (unfold s, goal; lia). assert (Hbox : box_size [w; h] = w * h) by (cbn; ring). rewrite <- Hbox in Hfuel.
  assert (Hp' : exists (HO : HeapOps F64) (_ : HeapLaws HO), p = pFM2 HO) by (destruct Hp as [->| ->]; [exists DaryHeap, (DaryLaws F64_laws)|exists FibHeap, (FibLaws F64_laws)]; reflexivity).
  destruct Hp' as (HO & HL & ->).
  destruct (C85_fm2_computes_in_doubles HO HL [w; h] g s goal flo fhi fuel Hmap HW Hs Hgo Hne Hfuel) as (q & g0 & q' & r & A1 & A2 & A3 & A4 & A5 & A6 & _).
  assert (Hr : computed fuel (pFM2 HO) w h img r).
  { exists g, (fm2_setPoints HO q [s] goal), g0, q'. cbn [pFM2 pl_star pl_heap]. split; [exact Hg|]. split; [|exact A2].
    rewrite Es, Ek. fold s goal. unfold fm2_ready. rewrite A1. reflexivity. }
  exists r. split; [exact Hr|]. split; [intros t Ht; exact (computed_once _ _ _ _ _ _ _ (planned_computed _ _ _ _ _ _ _ Ht) Hr)|]. auto.
Qed.

(** ** pictures *)
(** C112: a picture of at least 2 x 2 pixels with real values, two of them dark, gives a map as
    [C112_exact_answers] assumes it; the pixel in column x and row y (from the top) is the cell
    (x, h-1-y), free unless dark *)
Definition dark (pix : Z -> Z -> R) (x y : Z) : Prop := (pix x y / 255 < Rmargin)%R.
Theorem C112_pictures : forall w h (pix : Z -> Z -> R) x1 y1 x2 y2,
  2 <= w -> 2 <= h -> w * h < 2147483648 ->
  0 <= x1 < w -> 0 <= y1 < h -> 0 <= x2 < w -> 0 <= y2 < h -> x1 <> x2 \/ y1 <> y2 -> dark pix x1 y1 -> dark pix x2 y2 ->
  exists g : grid XR, loadMapFromImg w h (fun x y => XFin (pix x y) : XR) empty_grid = Ok g /\ fm2_map [w; h] g /\
    forall x y, 0 <= x < w -> 0 <= y < h -> (free g (cell_number [w; h] [x; h - 1 - y]) <-> ~ dark pix x y) /\ (obstacle g (cell_number [w; h] [x; h - 1 - y]) <-> dark pix x y).
Proof.
  intros w h pix x1 y1 x2 y2 Hw Hh Hwh Hx1 Hy1 Hx2 Hy2 Hd D1 D2.
  destruct (C43_image_is_flipped (empty_grid (N := XR)) w h (fun x y => XFin (pix x y)) ltac:(lia) ltac:(lia) Hwh) as (g & Eg & Hg & _ & Hleaf & Hcl & Hcells & Hobs).
  exists g. split; [exact Eg|].
  assert (Hv : forall x y, 0 <= x < w -> 0 <= y < h -> exists c, getCell g (cell_number [w; h] [x; h - 1 - y]) = Ok c /\ c_occ c = (XFin (pix x y / 255) : XR)).
  { intros x y Hx Hy. destruct (Hcells x y Hx Hy) as (c & Hc & Ho & _). exists c. split; [exact Hc|]. rewrite Ho.
    change (xdiv (XFin (pix x y)) (XFin 255) = XFin (pix x y / 255)). cbn. unfold Reqb. destruct (Req_EM_T 255 0); [lra|reflexivity]. }
  assert (Hpos : forall i, 0 <= i < w * h -> exists x y, 0 <= x < w /\ 0 <= y < h /\ i = cell_number [w; h] [x; h - 1 - y]).
  { intros i Hi. exists (i mod w), (h - 1 - i / w). assert (0 <= i mod w < w) by (apply Z.mod_pos_bound; lia). assert (0 <= i / w < h) by (split; [apply Z.div_pos; lia|apply Z.div_lt_upper_bound; lia]).
    split; [lia|]. split; [lia|]. cbn -[Z.mul Z.add Z.div Z.modulo Z.sub]. replace (h - 1 - (h - 1 - i / w)) with (i / w) by lia. pose proof (Z.div_mod i w ltac:(lia)). lia. }
  assert (Hlen : Z.of_nat (List.length (g_cells g)) = w * h) by (destruct Hg as [_ ->]; cbn; lia).
  assert (Hbox : box_size [w; h] = w * h) by (cbn; ring).
  assert (Hfo : forall x y, 0 <= x < w -> 0 <= y < h -> (free g (cell_number [w; h] [x; h - 1 - y]) <-> ~ dark pix x y) /\ (obstacle g (cell_number [w; h] [x; h - 1 - y]) <-> dark pix x y)).
  { intros x y Hx Hy. destruct (Hv x y Hx Hy) as (c & Hc & Ho). pose proof (isOccupied_XR c _ Ho) as Hi. unfold Rltb in Hi. unfold free, obstacle, dark.
    destruct (Rlt_dec (pix x y / 255) Rmargin) as [K|K]; split; split.
    - intros (c' & Hc' & Ho'). congruence.
    - intros; contradiction.
    - intros _. exact K.
    - intros _. exists c. auto.
    - intros _. exact K.
    - intros _. exists c. auto.
    - intros (c' & Hc' & Ho'). congruence.
    - intros; contradiction. }
  split; [|exact Hfo]. split; [exact Hcl|]. split; [|split].
  - split; [split; [repeat constructor; lia|rewrite Hbox; lia]|]. split; [split; [exact Hg|]|split; [split|split]].
    + intros i c Hc. destruct (img_tidy w h _ g ltac:(nia) ltac:(nia) Eg) as [Hdef _]. destruct (Hdef i c Hc) as (A & B & _ & C). auto.
    + exists 1%R. rewrite Hleaf. split; [reflexivity|lra].
    + intros i c Hc. pose proof (getCell_range _ _ _ Hc) as Hr. rewrite Hlen in Hr. destruct (Hpos i Hr) as (x & y & Hx & Hy & ->). destruct (Hv x y Hx Hy) as (c' & Hc' & Ho). exists (pix x y / 255)%R. congruence.
    + exact (proj1 Hobs).
    + intros i Hi. apply (proj2 Hobs) in Hi. destruct Hi as (c & Hc & _). apply getCell_range in Hc. rewrite Hlen in Hc. rewrite Hbox. exact Hc.
  - exact (proj2 Hobs).
  - set (a := cell_number [w; h] [x1; h - 1 - y1]). set (b := cell_number [w; h] [x2; h - 1 - y2]).
    assert (Ha : In a (g_obs g)) by (apply (proj2 Hobs), (proj2 (Hfo x1 y1 Hx1 Hy1)), D1). assert (Hb : In b (g_obs g)) by (apply (proj2 Hobs), (proj2 (Hfo x2 y2 Hx2 Hy2)), D2).
    assert (Hab : a <> b).
    { intros E. assert (E2 : [x1; h - 1 - y1] = [x2; h - 1 - y2]); [|injection E2; intros; lia].
      apply (cell_number_inj [w; h]); try exact E; unfold in_box; repeat (constructor; try lia). }
    destruct (g_obs g) as [|u [|v l]]; [destruct Ha| |cbn; lia]. exfalso. destruct Ha as [Ha|[]], Hb as [Hb|[]]. congruence.
Qed.

(** ** cases *)
(** a white picture of 400 x 300 pixels with two black ones *)
Definition c112_pix (x y : Z) : R := if (y =? 10) && ((x =? 10) || (x =? 20)) then 0%R else 255%R.
Definition c112_files {N : Num} (f : text) : option (Z * Z * (Z -> Z -> N)) :=
  if text_eqb f (str "dot.png") then Some (1, 1, fun _ _ => nofZ 255) else None.

Example C112_case :
  map_option [str "test_fm2"; str "-map"; str "map.png"] (str "map.png") /\
  (exists g : grid XR, loadMapFromImg 400 300 (fun x y => XFin (c112_pix x y) : XR) empty_grid = Ok g /\ fm2_map [400; 300] g /\
     free g (30 + 20 * 400) /\ free g (375 + 280 * 400)) /\
  test_fm2 (N := F64) 10 10 [str "test_fm2"; str "-map"] c112_files = Fail (Exit 1) /\
  test_fm2 (N := F64) 10 10 [str "test_fm2"; str "-v"; str "-map"] c112_files = Fail abort /\
  test_fm2 (N := F64) 10 10 [str "test_fm2"; str "-map"; str "map.png"] c112_files = Fail abort /\
  test_fm2 (N := F64) 10 10 [str "test_fm2"; str "-map"; str "dot.png"] c112_files = Fail UB.
Proof.
  split; [|split].
  - exists 1. split; [split; [lia|split; [reflexivity|intros; lia]]|reflexivity].
  - pose proof Rmargin_pos. assert (D : forall x, x = 10 \/ x = 20 -> dark c112_pix x 10).
    { intros x [->| ->]; unfold dark, c112_pix; cbn [Z.eqb Pos.eqb andb orb]; lra. }
    destruct (C112_pictures 400 300 c112_pix 10 10 20 10 ltac:(lia) ltac:(lia) ltac:(lia) ltac:(lia) ltac:(lia) ltac:(lia) ltac:(lia) ltac:(lia) (D 10 ltac:(lia)) (D 20 ltac:(lia))) as (g & Eg & Hm & Hf).
    exists g. split; [exact Eg|]. split; [exact Hm|].
    assert (W : forall x y, y <> 10 -> ~ dark c112_pix x y).
    { intros x y Hy. unfold dark, c112_pix. destruct (Z.eqb_spec y 10); [contradiction|]. cbn [andb]. unfold Rmargin. lra. }
    split; [change (30 + 20 * 400) with (cell_number [400; 300] [30; 300 - 1 - 279])|change (375 + 280 * 400) with (cell_number [400; 300] [375; 300 - 1 - 19])]; apply Hf; try lia; apply W; lia.
  - repeat split; vm_compute; reflexivity.
Qed.
Print Assumptions C112_each_result_is_the_planners_own.
Print Assumptions C112_start_and_goal.
Print Assumptions C112_exact_answers.

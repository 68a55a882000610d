(** Prop_FM2Again.v - property theorems C61: FM2 overwrites the velocities of the map and
    reset() does not bring them back; negative saturation distances. *)
From Coq Require Import Reals Lra.
From Verif Require Import Base BaseFacts Num NumXR NumF64 NumLaws Grid GridFacts GridUpd GridMore XGrid Spec Obs Examples Eikonal FMMModel HeapLaws HeapRef
  Frame Solution FMMStruct FMMAbs FMMX SolverModel Lifecycle Prop_FMM Prop_Solver Prop_Heap FM2Model FM2Facts Prop_FM2 DescentSpec GDModel GDFacts Prop_GD Prop_FM2Obj.
Open Scope Z_scope.

(** two grids have the same velocities / every cell is as new *)
Definition same_velocities dims (g g' : grid XR) : Prop :=
  forall i, 0 <= i < box_size dims -> exists c c', getCell g i = Ok c /\ getCell g' i = Ok c' /\ c_occ c = c_occ c'.

Lemma zero_velocity md h M : (md = -1 \/ 0 < md)%R -> (0 < h)%R -> (0 < M)%R -> target_velocity md h M 0 = 0%R.
Proof.
  intros Hmd Hh HM. unfold target_velocity. destruct (Req_EM_T md (-1)); [unfold Rdiv; lra|]. destruct Hmd as [|Hmd]; [contradiction|].
  assert (0 < md / h)%R by (apply Rdiv_lt_0_compat; lra). assert (E : (0 / M = 0)%R) by (unfold Rdiv; lra). rewrite E.
  destruct (Rlt_dec 0 (md / h)); [unfold Rdiv; lra|contradiction].
Qed.

(** After compute() and reset() the map is clean and unsolved again, but it holds the
    velocities FM2 has computed (gv), not those of the map that was given (g).  A second
    compute() then starts from gv: it succeeds, and its velocities are those FM2 computes for
    a map with the velocities gv. The hypotheses of the last part only say that no cell was
    slowed down below the obstacle threshold. *)
Theorem C61_reset_keeps_the_computed_velocities :
  forall (HO : HeapOps XR) (HL : HeapLaws HO) dims (g : grid XR) s goal md fuel,
  fm2_map dims g -> free g s -> free g goal -> s <> goal -> (md = -1 \/ 0 < md)%R -> box_size dims < Z.of_nat fuel ->
  exists o g0 o' g' gv o2 g2, fm2_ready HO (XFin md : XR) g [s] goal = Ok (o, g0) /\ fm2_compute HO fuel o g0 = Ok (o', g') /\
    velocity_map dims g md gv /\
    fm2_reset HO o' g' = Ok (o2, g2) /\ g_clean g2 = true /\ clean_grid dims g2 /\ g_leaf g2 = g_leaf g /\ g_obs g2 = g_obs g /\
    same_velocities dims g2 gv /\
    ((forall i, obstacle g2 i -> obstacle g i) ->
     exists o3 g3 gv2, fm2_compute HO fuel o2 g2 = Ok (o3, g3) /\ velocity_map dims g2 md gv2 /\ same_velocities dims g3 gv2 /\
       exists T2, solution dims (eq goal) (free gv2) (slow gv2) (2 * Rmargin) T2 /\ times g3 s = T2 s).
Proof.
  intros HO HL dims g s goal md fuel Hmap Hs Hk Hne Hmd Hfuel.
  assert (Hmd0 : md <> 0%R) by lra.
  pose proof Hmap as [Hcl [HP [Hob Hl]]]. pose proof HP as [Hsh [[Hg Hc] [Hre [Hnd Hr]]]].
  assert (Hrk : 0 <= goal < box_size dims) by (destruct Hk as [c [Hk' _]]; apply getCell_range in Hk'; destruct Hg as [_ <-]; exact Hk').
  destruct (in_range_not_goal _ _ Hsh Hrk) as [_ Hk2].
  pose proof (fm2_ready_eq HO (XFin md : XR) g [s] goal Hcl) as ER. rewrite Hk2 in ER.
  match type of ER with _ = Ok (?O, _) => set (o0 := O) in * end.
  destruct (fm2_computes_from HO HL dims g o0 s goal md fuel Hmap Hs Hk Hne Hmd0 Hfuel)
    as [o' [gv [g' [A1 [A2 [A3 [A4 [A5 [A6 [A7 [A8 [A9 [A10 [A11 [A12 [A13 [A14 [A15 A16]]]]]]]]]]]]]]]]]]; [repeat split|].
  set (g2 := clean (clean g')).
  assert (Eg2 : g2 = mkGrid (g_sh g') (g_leaf g') (map setDefault (g_cells g')) true (g_obs g')).
  { unfold g2. rewrite clean_clean. unfold clean. rewrite A9. reflexivity. }
  assert (Hcell : forall i c, getCell g' i = Ok c -> getCell g2 i = Ok (setDefault c)).
  { intros i c Hi. rewrite Eg2. unfold getCell, vget in Hi |- *. cbn [g_cells]. destruct (0 <=? i); [|discriminate]. rewrite nth_error_map.
    destruct (nth_error (g_cells g') (Z.to_nat i)); [|discriminate]. injection Hi as <-. reflexivity. }
  assert (Hcell' : forall i c, getCell g2 i = Ok c -> exists c', getCell g' i = Ok c' /\ c = setDefault c').
  { intros i c Hi. pose proof (getCell_range _ _ _ Hi) as Ri. rewrite Eg2 in Ri. cbn [g_cells] in Ri. rewrite map_length in Ri. destruct A8 as [A8a A8b].
    destruct (getCell_in dims g' i (conj A8a A8b) ltac:(lia)) as [c' Hc']. exists c'. split; [exact Hc'|]. rewrite (Hcell _ _ Hc') in Hi. congruence. }
  assert (HgV : same_velocities dims g2 gv).
  { intros i Hi. destruct (A3 i Hi) as [c [c' [B1 [B2 B3]]]]. exists (setDefault c'), c. split; [apply Hcell; exact B2|]. split; [exact B1|exact B3]. }
  assert (Hg2 : grid_ok dims g2). { rewrite Eg2. destruct A8 as [G1 G2]. split; [exact G1|]. cbn [g_cells]. rewrite map_length. exact G2. }
  exists o0, g, o', g', gv, (mkFm2 (mkSolver GSet false [s] (Some goal)) (g_obs g) (mkFmm (mkSolver GSet false (sv_init (fo_s (f2_inner o'))) (sv_goal (fo_s (f2_inner o')))) (hempty HO) NOHEUR (fo_dist (f2_inner o')) (fo_pre (f2_inner o')) (fo_coord (f2_inner o'))) (XFin md : XR) (f2_heur o')), g2.
  split; [exact ER|]. split; [exact A1|]. split; [exact A2|]. split.
  { unfold fm2_reset, solver_reset, fmm_reset, solver_reset. rewrite A10. cbn [sv_grid bind]. rewrite A11. cbn [bind]. cbn [sv_grid sv_init sv_goal]. rewrite A12, A13, A14. reflexivity. }
  split; [unfold g2; apply clean_flag|]. split.
  { split; [exact Hg2|]. intros i c Hi. destruct (Hcell' i c Hi) as [c' [_ ->]]. repeat split. }
  split; [rewrite Eg2; exact A16|]. split; [rewrite Eg2; exact A15|]. split; [exact HgV|].
  intros Hslow.
  destruct A2 as (T & M & h & Hsol & Eh & HM & HMat & HobT & HgV2 & Elv & HcV).
  assert (Hh : (0 < h)%R) by (destruct Hre as [[h' [Eh' Hh']] _]; congruence).
  (* the obstacles of the map are still obstacles *)
  assert (EOb : g_obs g2 = g_obs g) by (rewrite Eg2; exact A15).
  assert (Hob2 : forall i, In i (g_obs g2) <-> obstacle g2 i).
  { intros i. rewrite EOb, Hob. split; [|apply Hslow]. intros Hi.
    assert (Ri : 0 <= i < box_size dims) by (destruct Hi as [c [Hi' _]]; apply getCell_range in Hi'; destruct Hg as [_ <-]; exact Hi').
    destruct (HgV i Ri) as [c [c' [B1 [B2 B3]]]]. exists c. split; [exact B1|].
    destruct (HcV i Ri) as [t [c1 [HT [_ [Hc1 [Ho _]]]]]]. assert (c1 = c') by congruence. subst c1. rewrite (HobT i Hi) in HT. injection HT as <-.
    rewrite (zero_velocity md h M Hmd Hh HM) in Ho. apply (proj1 (occ_0_1 c)). congruence. }
  assert (Hmap2 : fm2_map dims g2).
  { split; [unfold g2; apply clean_flag|]. split; [|split; [exact Hob2|rewrite Eg2; cbn [g_obs]; rewrite A15; exact Hl]].
    split; [exact Hsh|]. split; [split; [exact Hg2|intros i c Hi; destruct (Hcell' i c Hi) as [c' [_ ->]]; repeat split]|].
    split; [split|].
    - exists h. split; [rewrite Eg2; cbn [g_leaf]; rewrite A16; exact Eh|exact Hh].
    - intros i c Hi. pose proof (getCell_range _ _ _ Hi) as Ri. destruct Hg2 as [_ Hl2]. rewrite Hl2 in Ri.
      destruct (HgV i Ri) as [c1 [c' [B1 [B2 B3]]]]. assert (c1 = c) by congruence. subst c1.
      destruct (HcV i Ri) as [t [c1 [_ [_ [Hc1 [Ho _]]]]]]. exists (target_velocity md h M t). congruence.
    - split; [rewrite Eg2; cbn [g_obs]; rewrite A15; exact Hnd|rewrite Eg2; cbn [g_obs]; rewrite A15; exact Hr]. }
  assert (Hfree2 : forall i, free g i -> free g2 i).
  { intros i Hi. assert (Ri : 0 <= i < box_size dims) by (destruct Hi as [c [Hi' _]]; apply getCell_range in Hi'; destruct Hg as [_ <-]; exact Hi').
    destruct (getCell_in dims g2 i Hg2 Ri) as [c Hci]. exists c. split; [exact Hci|]. destruct (isOccupied c) eqn:EO; [|reflexivity]. exfalso.
    assert (obstacle g i) as [c1 [Hc1 Ho1]] by (apply Hslow; exists c; auto). destruct Hi as [c2 [Hc2 Ho2]]. congruence. }
  match goal with |- exists o3 g3 gv2, fm2_compute HO fuel ?O g2 = _ /\ _ =>
    destruct (fm2_computes_from HO HL dims g2 O s goal md fuel Hmap2 (Hfree2 s Hs) (Hfree2 goal Hk) Hne Hmd0 Hfuel)
      as [o3 [gv2 [g3 [D1 [D2 [D3 [D4 _]]]]]]] end.
  { split; [reflexivity|]. split; [rewrite Eg2; cbn [f2_sources g_obs]; symmetry; exact A15|]. repeat split. }
  exists o3, g3, gv2. split; [exact D1|]. split; [exact D2|]. split; [|exact D4].
  intros i Hi. destruct (D3 i Hi) as [c [c' [B1 [B2 B3]]]]. exists c', c. auto.
Qed.

(** A negative saturation distance other than -1 gives every cell the velocity 1, the
    obstacles too: they are no obstacles any more in the second wave. *)
Theorem C61_negative_distance_removes_the_obstacles :
  forall dims (g gv : grid XR) md, velocity_map dims g md gv -> reals_ok g -> (md < 0)%R -> md <> (-1)%R ->
  forall i, 0 <= i < box_size dims -> (exists c, getCell gv i = Ok c /\ c_occ c = XFin 1) /\ free gv i.
Proof.
  intros dims g gv md (T & M & h & _ & Eh & HM & _ & _ & _ & _ & Hc) [[h' [Eh' Hh]] _] Hneg Hne i Hi.
  assert (h' = h) by congruence. subst h'.
  destruct (Hc i Hi) as [t [c [_ [[Ht _] [Hci [Ho _]]]]]].
  assert (E : target_velocity md h M t = 1%R).
  { unfold target_velocity. destruct (Req_EM_T md (-1)); [contradiction|]. destruct (Rlt_dec (t / M) (md / h)) as [K|]; [|reflexivity]. exfalso.
    assert (0 <= t / M)%R by (apply Rle_mult_inv_pos; lra). assert (md / h < 0)%R; [|lra].
    unfold Rdiv. rewrite <- (Rmult_0_l (/ h)). apply Rmult_lt_compat_r; [apply Rinv_0_lt_compat; lra|lra]. }
  rewrite E in Ho. split; [exists c; auto|]. exists c. split; [exact Hci|]. apply (proj2 (occ_0_1 c)). exact Ho.
Qed.
(** end to end: compute() then reaches the start through the obstacles, in a map of which
    every cell is free *)
Theorem C61_negative_distance_end_to_end :
  forall (HO : HeapOps XR) (HL : HeapLaws HO) dims (g : grid XR) s goal md fuel,
  fm2_map dims g -> free g s -> free g goal -> s <> goal -> (md < 0)%R -> md <> (-1)%R -> box_size dims < Z.of_nat fuel ->
  exists o g0 o' g', fm2_ready HO (XFin md : XR) g [s] goal = Ok (o, g0) /\ fm2_compute HO fuel o g0 = Ok (o', g') /\
    (forall i, 0 <= i < box_size dims -> free g' i) /\ exists t, times g' s = Some t.
Proof.
  intros HO HL dims g s goal md fuel Hmap Hs Hk Hne Hneg Hm1 Hfuel.
  destruct (C40_fm2_computes HO HL dims g s goal md fuel Hmap Hs Hk Hne ltac:(lra) Hfuel)
    as [o [g0 [o' [gv [g' [E1 [E2 [HV [Hocc [[T2 [HT2 HTs]] [HT0 _]]]]]]]]]]].
  exists (fm2_setPoints HO o [s] goal), g0, o', g'. split; [unfold fm2_ready; rewrite E1; reflexivity|]. split; [exact E2|].
  pose proof Hmap as [_ [HP _]]. pose proof HP as [Hsh [[Hg _] [Hre _]]].
  pose proof (C61_negative_distance_removes_the_obstacles dims g gv md HV Hre Hneg Hm1) as HF. split.
  - intros i Hi. destruct (Hocc i Hi) as [c [c' [B1 [B2 B3]]]]. exists c'. split; [exact B2|]. destruct (HF i Hi) as [[c1 [D1 D2]] _]. assert (c1 = c) by congruence. subst c1.
    apply (proj2 (occ_0_1 c')). congruence.
  - assert (Hrs : 0 <= s < box_size dims) by (destruct Hs as [c [Hs' _]]; apply getCell_range in Hs'; destruct Hg as [_ <-]; exact Hs').
    assert (Hrk : 0 <= goal < box_size dims) by (destruct Hk as [c [Hk' _]]; apply getCell_range in Hk'; destruct Hg as [_ <-]; exact Hk').
    destruct (T2 s) as [t|] eqn:ET; [exists t; congruence|]. exfalso.
    (* an unreached cell has no reached neighbour, and the grid is connected *)
    destruct HT2 as [[S1 _] [[_ _ B3] _]].
    assert (Hreach : reachable dims (eq goal) (fun _ => True) s).
    { apply (obstacles_reach_all dims _ _ goal); [exact Hrk|apply dims2_proper'; exact (proj1 Hsh)|reflexivity|auto|exact Hrs]. }
    assert (Hall : forall i, reachable dims (eq goal) (fun _ => True) i -> 0 <= i < box_size dims /\ T2 i <> None).
    { intros i Hi. induction Hi as [i <-|i j Hi [Ri IH] Ha _].
      - split; [exact Hrk|]. rewrite (S1 goal eq_refl). discriminate.
      - assert (Rj : 0 <= j < box_size dims) by (destruct Ha as [ca [cb [Ba [Bb [_ [_ <-]]]]]]; apply cell_number_range; exact Bb).
        split; [exact Rj|]. destruct (Z.eq_dec goal j) as [<-|Hnj]; [rewrite (S1 goal eq_refl); discriminate|].
        intros EN. apply IH. apply (B3 j i Rj (proj2 (HF j Rj)) Hnj EN). apply adjacent_sym. exact Ha. }
    exact (proj2 (Hall s Hreach) ET).
Qed.
Example C61_case : fm2_map [3; 3] fm2_case_grid /\ free fm2_case_grid 2 /\ free fm2_case_grid 6. Proof. exact C40_case. Qed.

(** The second answer differs: an empty 3x3 room, from one corner to the opposite one, in
    doubles.  compute(); reset(); compute() gives the start another arrival time. *)
Definition room5 : grid F64 :=
  setOccupiedCells (vgrid [5;5] (n1 : F64) (map z64 [0;0;0;0;0; 0;1;1;1;0; 0;1;1;1;0; 0;1;1;1;0; 0;0;0;0;0]))
    [0;1;2;3;4;5;9;10;14;15;19;20;21;22;23;24].
Definition two_runs (g : grid F64) s k md : res (F64 * F64) :=
  '(o, g0) <- fm2_ready RefHeap md g [s] k ;;
  '(o1, g1) <- fm2_compute RefHeap 100 o g0 ;;
  t1 <- getArrivalTime g1 s ;;
  '(o2, g2) <- fm2_reset RefHeap o1 g1 ;;
  '(o3, g3) <- fm2_compute RefHeap 100 o2 g2 ;;
  t2 <- getArrivalTime g3 s ;; Ok (t1, t2).
Theorem C61_second_answer_differs :
  g_clean room5 = true /\ clean_grid [5; 5] room5 /\
  exists t1 t2, two_runs room5 6 18 (z64 (-1)) = Ok (t1, t2) /\ nltb t2 t1 = true /\ nfloor t1 = Some 5 /\ nfloor t2 = Some 4.
Proof.
  split; [reflexivity|]. split; [exact (vgrid_clean [5;5] (n1 : F64) (map z64 [0;0;0;0;0; 0;1;1;1;0; 0;1;1;1;0; 0;1;1;1;0; 0;0;0;0;0]) eq_refl)|].
  assert (K : match two_runs room5 6 18 (z64 (-1)) with
              | Ok (t1, t2) => nltb t2 t1 = true /\ nfloor t1 = Some 5 /\ nfloor t2 = Some 4
              | Fail _ => False end) by (vm_compute; auto).
  destruct (two_runs room5 6 18 (z64 (-1))) as [[t1 t2]|]; [|contradiction]. exists t1, t2. auto.
Qed.

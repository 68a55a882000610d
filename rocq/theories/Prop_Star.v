(** Prop_Star.v - property theorems C24: the heuristic distance table of FMM* (fmm.hpp:182-215). *)
From Coq Require Import Reals Lra.
From Verif Require Import Base BaseFacts Num NumXR NumF64 NumLaws Grid GridFacts GridMore Spec Obs Eikonal FMMModel HeapRef SolverModel Prop_FMM.
Open Scope Z_scope.

(** Euclidean distance between two coordinate tuples, in cells *)
Definition euclid (a b : list Z) : R := sqrt (Rsum (map (fun '(x, y) => Rsqr (IZR x - IZR y)) (combine a b))).

(** what precomputeDistances stores for the offsets [cs], in any arithmetic *)
Definition table_entry {N : Num} (cs : list Z) : N := nsqrt (fold_left (fun d c => nadd d (nofZ (u32 (c * c)))) cs n0).

(** absolute differences *)
Definition offs (a b : list Z) : list Z := map (fun '(p, q) => Z.abs (p - q)) (combine a b).

Lemma offs_in_box dims : forall a b, in_box dims a -> in_box dims b -> in_box dims (offs a b).
Proof.
  induction dims as [|k dims IH]; intros a b Ha Hb; inversion Ha; subst; inversion Hb; subst; [constructor|].
  constructor; [lia|]. apply IH; assumption.
Qed.

Lemma abs_ok dims : forall a b, in_box dims a -> in_box dims b -> box_size dims < 4294967296 -> Forall (fun k => k <= 65536) dims ->
  mapM (fun '(p, q) => absUI (u32 (p - q))) (combine a b) = Ok (offs a b).
Proof.
  intros a b Ha Hb _ Hk. apply mapM_ok. intros [p q] Hin. cbn.
  assert (R : - 65536 < p - q < 65536).
  { clear - Ha Hb Hk Hin. revert a b Ha Hb Hin. induction Hk as [|k dims Hk0 Hk IH]; intros a b Ha Hb Hin; [inversion Ha; subst; contradiction|].
    inversion Ha as [|? x ? a' Hx Ha']; subst; inversion Hb as [|? y ? b' Hy Hb']; subst.
    destruct Hin as [E|Hin]; [injection E as <- <-; lia|]. apply (IH a' b'); assumption. }
  unfold absUI, s32, u32. rewrite Z.mod_mod by lia.
  destruct (Z.ltb_spec (p - q) 0).
  - replace ((p - q) mod 4294967296) with (p - q + 4294967296) by (symmetry; rewrite <- (Z.mod_small (p - q + 4294967296) 4294967296) by lia; rewrite <- (Z_mod_plus_full (p - q) 1); f_equal).
    destruct (Z.ltb_spec (p - q + 4294967296) 2147483648); [lia|]. destruct (Z.ltb_spec 0 (p - q + 4294967296 - 4294967296)); [lia|].
    destruct (Z.eqb_spec (p - q + 4294967296 - 4294967296) (-2147483648)); [lia|]. f_equal. lia.
  - rewrite Z.mod_small by lia. destruct (Z.ltb_spec (p - q) 2147483648); [|lia]. destruct (Z.ltb_spec 0 (p - q)); [f_equal; lia|].
    destruct (Z.eqb_spec (p - q) (-2147483648)); [lia|]. f_equal. lia.
Qed.

Section AnyN.
Context {N : Num}.
Variable dims : list Z.
Hypothesis H2 : (2 <= length dims)%nat.
Hypothesis Hp : proper dims.
Hypothesis Hlt : box_size dims < 4294967296.

Lemma table_ok : exists dist : list N, precomputeDistances (mk_shape dims) = Ok dist /\
  forall cs, in_box dims cs -> vget dist (cell_number dims cs) = Ok (table_entry cs).
Proof.
  unfold precomputeDistances. assert (Hn : s_n (mk_shape dims) = box_size dims) by (rewrite mk_shape_eq by auto; reflexivity). rewrite Hn.
  assert (Hall : forall i, In i (zseq (Z.to_nat (box_size dims))) ->
     exists cs, idx2coord (mk_shape dims) i = Ok cs).
  { intros i Hi. apply in_zseq in Hi. destruct (proj1 (idx_coord_bijection dims H2 Hp Hlt) i ltac:(pose proof (box_size_pos _ Hp); lia)) as [cs [E _]]. eauto. }
  set (co := fun i => match idx2coord (mk_shape dims) i with Ok cs => cs | Fail _ => [] end).
  exists (map (fun i => table_entry (co i)) (zseq (Z.to_nat (box_size dims)))). split.
  - apply mapM_ok. intros i Hi. destruct (Hall i Hi) as [cs E]. unfold co. rewrite E. reflexivity.
  - intros cs Hcs. pose proof (cell_number_range dims cs Hcs) as Hr.
    unfold vget. destruct (Z.leb_spec 0 (cell_number dims cs)); [|lia]. rewrite nth_error_map, nth_error_zseq by lia. cbn [option_map].
    rewrite Z2Nat.id by lia. unfold co. rewrite (idx2coord_eq dims cs H2 Hlt Hcs). reflexivity.
Qed.

Hypothesis Hk : Forall (fun k => k <= 65536) dims.

Lemma lookup_ok dist s gc cs : in_box dims gc -> in_box dims cs -> precomputeDistances (N := N) (mk_shape dims) = Ok dist ->
  getPrecomputedDistance (mkCfg s dist gc) (mk_shape dims) (cell_number dims cs) = Ok (table_entry (offs cs gc)).
Proof.
  intros Hg Hcs Hd. destruct table_ok as [dist' [E T]]. rewrite Hd in E. injection E as <-.
  unfold getPrecomputedDistance. rewrite (idx2coord_eq dims cs H2 Hlt Hcs). cbn [bind fc_goalc fc_dist].
  rewrite (abs_ok dims cs gc Hcs Hg Hlt Hk). cbn [bind].
  assert (Hne : dims <> []) by (destruct dims; cbn in H2; [lia|discriminate]).
  rewrite (coord2idx_eq dims (offs cs gc) Hne Hlt (offs_in_box _ _ _ Hcs Hg)). cbn [bind]. apply T. apply offs_in_box; assumption.
Qed.
End AnyN.

(** C24 (any arithmetic): the table exists and every look-up succeeds, so the hypothesis
    [heuristic_ready] of C15-C19 holds after setHeuristics. *)
Theorem C24_lookups_succeed :
  forall (N : Num) dims goalc s, (2 <= length dims)%nat -> proper dims -> box_size dims < 4294967296 ->
  Forall (fun k => k <= 65536) dims -> in_box dims goalc ->
  exists dist : list N, precomputeDistances (mk_shape dims) = Ok dist /\ heuristic_ready dims (mkCfg s dist goalc).
Proof.
  intros N dims gc s H2 Hp Hlt Hk Hg. destruct (table_ok (N := N) dims H2 Hp Hlt) as [dist [Hd T]]. exists dist. split; [exact Hd|]. right.
  intros i Hi. destruct (proj1 (idx_coord_bijection dims H2 Hp Hlt) i Hi) as [cs [E1 [E2 E3]]].
  assert (Hne : dims <> []) by (destruct dims; cbn in H2; [lia|discriminate]).
  rewrite (coord2idx_eq dims cs Hne Hlt E2) in E3. injection E3 as <-. eexists. apply (lookup_ok dims H2 Hp Hlt Hk dist s gc cs Hg E2 Hd).
Qed.
Print Assumptions C24_lookups_succeed.

(** C24 (exact arithmetic): the value is the Euclidean distance to the goal. *)
Theorem C24_distance_is_euclidean :
  forall dims goalc s dist cs i, (2 <= length dims)%nat -> proper dims -> box_size dims < 4294967296 ->
  Forall (fun k => k <= 65536) dims -> in_box dims goalc -> in_box dims cs -> i = cell_number dims cs ->
  precomputeDistances (N := XR) (mk_shape dims) = Ok dist ->
  getPrecomputedDistance (mkCfg s dist goalc) (mk_shape dims) i = Ok (XFin (euclid cs goalc) : XR).
Proof.
  intros dims gc s dist cs i H2 Hp Hlt Hk Hg Hcs -> Hd. rewrite (lookup_ok dims H2 Hp Hlt Hk dist s gc cs Hg Hcs Hd). f_equal.
  unfold table_entry, euclid.
  assert (A : forall l (x : R), Forall (fun c => 0 <= c < 65536) l -> (0 <= x)%R ->
     fold_left (fun (d : XR) c => nadd d (nofZ (u32 (c * c)))) l (XFin x : XR) = XFin (x + Rsum (map (fun c => Rsqr (IZR c)) l))).
  { induction l as [|c l IH]; intros x Hl Hx; cbn [fold_left map]; [change (Rsum []) with 0%R; rewrite Rplus_0_r; reflexivity|].
    apply Forall_cons_iff in Hl. destruct Hl as [Hc Hl].
    assert (Eu : u32 (c * c) = c * c) by (unfold u32; apply Z.mod_small; nia). rewrite Eu.
    change (nadd (XFin x : XR) (nofZ (c * c))) with (XFin (x + IZR (c * c)) : XR). rewrite IH; [|exact Hl|].
    - change (Rsum ((IZR c)² :: map (fun c => Rsqr (IZR c)) l)%R) with (Rsqr (IZR c) + Rsum (map (fun c => Rsqr (IZR c)) l))%R.
      f_equal. rewrite mult_IZR. unfold Rsqr. ring.
    - rewrite mult_IZR. pose proof (Rle_0_sqr (IZR c)). unfold Rsqr in H. lra. }
  assert (B : Forall (fun c => 0 <= c < 65536) (offs cs gc)).
  { pose proof (offs_in_box _ _ _ Hcs Hg) as Ho. clear - Ho Hk. revert Hk Ho. generalize (offs cs gc) as l. induction dims as [|k dims IH]; intros l Hk Ho; inversion Ho; subst; constructor;
      apply Forall_cons_iff in Hk; destruct Hk; [lia|]. eauto. }
  change (n0 : XR) with (XFin 0 : XR). rewrite A by (auto; lra). rewrite Rplus_0_l.
  assert (C : Rsum (map (fun c => Rsqr (IZR c)) (offs cs gc)) = Rsum (map (fun '(x, y) => Rsqr (IZR x - IZR y)) (combine cs gc))).
  { unfold offs. rewrite map_map. f_equal. apply map_ext. intros [x y]. rewrite abs_IZR, minus_IZR. rewrite <- Rsqr_abs. reflexivity. }
  rewrite C. set (S := Rsum _). assert (HS : (0 <= S)%R).
  { unfold S. clear. induction (combine cs gc) as [|[x y] l IH]; cbn [map]; [cbn; lra|].
    match goal with |- (0 <= Rsum (?a :: ?r))%R => change (Rsum (a :: r)) with (a + Rsum r)%R end. pose proof (Rle_0_sqr (IZR x - IZR y)). lra. }
  cbn. unfold Rltb. destruct (Rlt_dec S 0); [lra|reflexivity].
Qed.
Print Assumptions C24_distance_is_euclidean.

Example C24_case : (2 <= length [5;4;3])%nat /\ proper [5;4;3] /\ box_size [5;4;3] < 4294967296 /\ Forall (fun k => k <= 65536) [5;4;3] /\
  in_box [5;4;3] [4;0;2] /\ in_box [5;4;3] [1;2;0] /\ euclid [4;0;2] [1;2;0] = sqrt 17.
Proof.
  split; [cbn; lia|]. split; [repeat (constructor; [lia|]); constructor|]. split; [cbn; lia|]. split; [repeat (constructor; [lia|]); constructor|].
  split; [repeat (constructor; [lia|]); constructor|]. split; [repeat (constructor; [lia|]); constructor|].
  unfold euclid. f_equal. cbn. unfold Rsqr. lra.
Qed.

(** *** The table is written out of bounds, and kept for another grid *)
Theorem C24_table_written_past_the_end :
  forall (N : Num) dims, proper dims -> box_size dims < 4294967296 -> precompute_strict (N := N) 0 (mk_shape dims) = Fail UB.
Proof.
  intros N dims Hp Hlt. unfold precompute_strict. rewrite mk_shape_eq by auto. cbn [s_n]. pose proof (box_size_pos _ Hp).
  destruct (Z.ltb_spec 0 (box_size dims)); [reflexivity|lia].
Qed.
Print Assumptions C24_table_written_past_the_end.

(** An FMM* solver computes on a 3x3 map with goal (2,2); then it is reset and given a
    map of other dimensions.  The distances of the old map are used: on a 4x2 map with goal
    7 = (3,1), cell 4 = (0,1) reads 1 (the entry of (0,1) in the 3x3 map) instead of 3, and
    on a 4x4 map cell 0 reads past the end of the table. *)
Definition stale (dims2 : list Z) (goal2 : Z) : res (fmm_cfg (N := F64)) :=
  let g1 := new_grid [3;3] (n1 : F64) in let g2 := new_grid dims2 (n1 : F64) in
  '(o, h) <- fmm_setEnvironment RefHeap (fmm_new RefHeap DISTANCE) (Some g1) ;;
  '(o, h) <- fmm_compute RefHeap 50 (fmm_setPoints RefHeap o [0] 8) h ;;
  '(o, h) <- fmm_reset RefHeap o h ;;
  '(o, h) <- fmm_setEnvironment RefHeap o (Some g2) ;;
  '(o, h) <- fmm_setup RefHeap (fmm_setPoints RefHeap o [0] goal2) h ;;
  Ok (mkCfg (fo_strat o) (fo_dist o) (fo_coord o)).

Definition fresh (dims2 : list Z) (goal2 : Z) : res (fmm_cfg (N := F64)) :=
  '(o, h) <- fmm_setEnvironment RefHeap (fmm_new RefHeap DISTANCE) (Some (new_grid dims2 (n1 : F64))) ;;
  '(o, h) <- fmm_setup RefHeap (fmm_setPoints RefHeap o [0] goal2) h ;;
  Ok (mkCfg (fo_strat o) (fo_dist o) (fo_coord o)).

Theorem C24_table_kept_for_another_grid :
  (exists c1 c2 d1 d2, stale [4;2] 7 = Ok c1 /\ fresh [4;2] 7 = Ok c2 /\
     getPrecomputedDistance c1 (mk_shape [4;2]) 4 = Ok d1 /\ getPrecomputedDistance c2 (mk_shape [4;2]) 4 = Ok d2 /\ nltb d1 d2 = true) /\
  (exists c1 c2 d2, stale [4;4] 15 = Ok c1 /\ fresh [4;4] 15 = Ok c2 /\
     getPrecomputedDistance c1 (mk_shape [4;4]) 0 = Fail UB /\ getPrecomputedDistance c2 (mk_shape [4;4]) 0 = Ok d2).
Proof.
  split.
  - assert (K : match stale [4;2] 7, fresh [4;2] 7 with Ok c1, Ok c2 =>
        match getPrecomputedDistance c1 (mk_shape [4;2]) 4, getPrecomputedDistance c2 (mk_shape [4;2]) 4 with Ok d1, Ok d2 => nltb d1 d2 | _, _ => false end | _, _ => false end = true) by (vm_compute; reflexivity).
    destruct (stale [4;2] 7) as [c1|]; [|discriminate]. destruct (fresh [4;2] 7) as [c2|]; [|discriminate].
    destruct (getPrecomputedDistance c1 (mk_shape [4;2]) 4) as [d1|] eqn:E1; [|discriminate]. destruct (getPrecomputedDistance c2 (mk_shape [4;2]) 4) as [d2|] eqn:E2; [|discriminate].
    exists c1, c2, d1, d2. auto.
  - assert (K : match stale [4;4] 15, fresh [4;4] 15 with Ok c1, Ok c2 =>
        match getPrecomputedDistance c1 (mk_shape [4;4]) 0, getPrecomputedDistance c2 (mk_shape [4;4]) 0 with Fail UB, Ok d2 => true | _, _ => false end | _, _ => false end = true) by (vm_compute; reflexivity).
    destruct (stale [4;4] 15) as [c1|]; [|discriminate]. destruct (fresh [4;4] 15) as [c2|]; [|discriminate].
    destruct (getPrecomputedDistance c1 (mk_shape [4;4]) 0) as [d1|[]] eqn:E1; try discriminate. destruct (getPrecomputedDistance c2 (mk_shape [4;4]) 0) as [d2|] eqn:E2; [|discriminate].
    exists c1, c2, d2. auto.
Qed.
Print Assumptions C24_table_kept_for_another_grid.

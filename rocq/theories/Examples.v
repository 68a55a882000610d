(** Examples.v - a concrete family of grids meeting the hypotheses of the
    theorems: a new grid with unit velocities, and a few obstacles. *)
From Coq Require Import Reals Lra.
From Verif Require Import Base BaseFacts Num NumXR NumLaws Grid GridFacts GridUpd GridMore Spec Obs.
Open Scope Z_scope.

Lemma new_grid_ok {N : Num} dims (leaf : N) :
  proper dims -> box_size dims < 4294967296 -> grid_ok dims (new_grid dims leaf).
Proof.
  intros Hp Hlt. split; [reflexivity|]. unfold new_grid, resize. cbn [g_cells].
  rewrite map_length, length_zseq. rewrite mk_shape_eq by (auto; lia). cbn [s_n].
  assert (0 <= box_size dims) by (clear Hlt; induction Hp as [|k r H1 H2 IH]; [cbn; lia|]; change (box_size (k :: r)) with (k * box_size r); nia).
  lia.
Qed.

Lemma new_grid_cell {N : Num} dims (leaf : N) i c :
  getCell (new_grid dims leaf) i = Ok c -> c = fresh_cell i.
Proof.
  unfold getCell, new_grid, resize. cbn [g_cells]. intros H. apply vget_ok in H. destruct H as [H1 H2].
  assert (Hl : (Z.to_nat i < length (map (fresh_cell (N := N)) (zseq (Z.to_nat (s_n (mk_shape dims))))))%nat)
    by (apply nth_error_Some; congruence).
  rewrite map_length, length_zseq in Hl.
  rewrite nth_error_map, nth_error_zseq in H2 by exact Hl. cbn in H2.
  injection H2 as <-. rewrite Z2Nat.id by lia. reflexivity.
Qed.

Lemma new_grid_times_ok dims h : times_ok (new_grid dims (XFin h : XR)).
Proof. intros i c H. apply new_grid_cell in H. subst. left; reflexivity. Qed.

Lemma new_grid_reals_ok dims h : (0 < h)%R -> reals_ok (new_grid dims (XFin h : XR)).
Proof.
  intros Hh. split; [exists h; auto|]. intros i c H. apply new_grid_cell in H. subst.
  exists 1%R. reflexivity.
Qed.

Lemma new_grid_free {N : Num} (L : NumLaws N) dims (leaf : N) i :
  proper dims -> box_size dims < 4294967296 -> 0 <= i < box_size dims -> free (new_grid dims leaf) i.
Proof.
  intros Hp Hlt Hi. destruct (getCell_in dims (new_grid dims leaf) i (new_grid_ok dims leaf Hp Hlt) Hi) as [c Hc].
  exists c. split; [exact Hc|]. apply new_grid_cell in Hc. subst. unfold isOccupied. cbn [c_occ fresh_cell].
  apply (nl_1_free N L).
Qed.

Lemma new_grid_slow dims h i : (0 < h)%R -> proper dims -> box_size dims < 4294967296 -> 0 <= i < box_size dims ->
  slow (new_grid dims (XFin h : XR)) i = (h / 1)%R.
Proof.
  intros Hh Hp Hlt Hi. unfold slow.
  destruct (getCell_in dims (new_grid dims (XFin h : XR)) i (new_grid_ok dims _ Hp Hlt) Hi) as [c Hc].
  rewrite Hc. apply new_grid_cell in Hc. subst. reflexivity.
Qed.

(** setting one time to a non-negative real keeps the grid well formed *)
Lemma set_times_ok (g g' : grid XR) i r :
  times_ok g -> (0 <= r)%R -> setArrivalTime g i (XFin r) = Ok g' -> times_ok g'.
Proof.
  intros Hok Hr H j c Hc. rewrite (updCell_get _ _ _ _ j H) in Hc.
  destruct (i =? j).
  - destruct (getCell g j); [|discriminate]. injection Hc as <-. right. exists r. auto.
  - exact (Hok j c Hc).
Qed.

Lemma set_reals_ok (g g' : grid XR) i t :
  reals_ok g -> setArrivalTime g i t = Ok g' -> reals_ok g'.
Proof.
  intros [[h [E Hh]] Hr] H. split.
  - exists h. destruct (updCell_fields _ _ _ _ H) as [_ [-> _]]. auto.
  - intros j c Hc. rewrite (updCell_get _ _ _ _ j H) in Hc.
    destruct (i =? j).
    + destruct (getCell g j) as [c0|] eqn:E0; [|discriminate]. injection Hc as <-. exact (Hr j c0 E0).
    + exact (Hr j c Hc).
Qed.

(** a new grid with the given velocities *)
Definition vgrid {N : Num} (dims : list Z) (leaf : N) (vs : list N) : grid N :=
  with_cells (new_grid dims leaf)
    (map (fun '(i, v) => with_occ (fresh_cell i) v) (combine (zseq (length vs)) vs)).

Lemma vgrid_clean {N : Num} dims (leaf : N) (vs : list N) :
  Z.of_nat (length vs) = box_size dims -> clean_grid dims (vgrid dims leaf vs).
Proof.
  intros Hl. split.
  - split; [reflexivity|]. unfold vgrid, with_cells. cbn [g_cells]. rewrite map_length, combine_length, length_zseq, Nat.min_id. exact Hl.
  - intros i c H. unfold getCell, vgrid, with_cells in H. cbn [g_cells] in H. apply vget_ok in H. destruct H as [_ H].
    apply nth_error_In in H. apply in_map_iff in H. destruct H as [[k v] [<- _]]. auto.
Qed.

(** Prop_Dary.v - property theorems C70: FMDaryHeap, the default narrow band of FMM, under
    any legal history of push / increase / update / popMinIdx with changing times; and
    FMM's guarantees with that heap (C15, C17-C19). *)
From Coq Require Import Reals Lra Permutation.
From Verif Require Import Base BaseFacts Num NumXR NumF64 NumLaws Grid GridFacts GridUpd Spec Obs Solution
  FMMModel HeapRef HeapLaws BagHeap DaryModel DaryHeap Prop_FMM Prop_Heap Prop_SFMM.
Open Scope Z_scope.

(** a step of a history: give a cell a time and push it / improve the time of a stored cell
    and call increase / change the time of a stored cell and call update / popMinIdx *)
Inductive hop (N : Num) := HPush (i : Z) (v : N) | HIncrease (i : Z) (v : N) | HUpdate (i : Z) (v : N) | HPop.
Arguments HPush {N}. Arguments HIncrease {N}. Arguments HUpdate {N}. Arguments HPop {N}.

Definition kset {N : Num} (k : Z -> N) (i : Z) (v : N) : Z -> N := fun x => if i =? x then v else k x.

(** Along every legal history (no cell pushed while stored; increase and update only for
    stored cells; increase never for a later time; no NaN) every call succeeds, the queue
    holds exactly the pushed cells not yet popped, and popMinIdx returns a stored cell
    with the smallest time. [k]: the current times. *)
Fixpoint serves {N : Num} (k : Z -> N) (h : dheap) (bag : list Z) (ops : list (hop N)) : Prop :=
  Permutation (map fst (dh_q h)) bag /\
  match ops with
  | [] => True
  | HPush i v :: r => ~ In i bag -> nisnan v = false ->
      let k' := kset k i v in serves k' (d_push k' i h) (i :: bag) r
  | HIncrease i v :: r => In i bag -> nisnan v = false -> nltb (k i) v = false ->
      let k' := kset k i v in exists h', d_increase k' i h = Ok h' /\ serves k' h' bag r
  | HUpdate i v :: r => In i bag -> nisnan v = false ->
      let k' := kset k i v in exists h', d_update k' i h = Ok h' /\ serves k' h' bag r
  | HPop :: r => bag <> [] ->
      exists m h' bag', d_pop k h = Some (m, h') /\ Permutation bag (m :: bag') /\
        (forall x, In x bag -> nltb (k x) (k m) = false) /\ serves k h' bag' r
  end.

Section S.
Context {N : Num}.
Variable L : NumLaws N.
Notation fs := (map fst).

Lemma upd_heap (k k' : Z -> N) q p i : (p < length q)%nat -> fst (ent q p) = i -> NoDup (fs q) -> total_on k (fs q) -> total_on k' (fs q) -> heap_ok k (fs q) ->
  (forall x, In x (fs q) -> x <> i -> k x = k' x) ->
  heap_ok k' (fs (match p with
                  | O => dsiftdown (length q) k' q p
                  | S m => if dless k' (ent q (Nat.div m 2)) (ent q p) then dsiftup (length q) k' q p else dsiftdown (length q) k' q p
                  end)).
Proof.
  intros Hp Ei Hnd T T' H Hk. set (h := fs q) in *. assert (Hl : length h = length q) by apply map_length.
  assert (Eat : at_ h p = i) by (unfold h; rewrite at_fs; exact Ei).
  assert (Hneq : forall j, (j < length h)%nat -> j <> p -> at_ h j <> i).
  { intros j Hj Hne E. apply Hne. apply (proj1 (NoDup_nth h 0) Hnd j p); [lia|lia|]. unfold at_ in *. congruence. }
  assert (Hsame : forall a b, (a < length h)%nat -> (b < length h)%nat -> a <> p -> b <> p -> above k (at_ h a) (at_ h b) -> above k' (at_ h a) (at_ h b)).
  { intros a b Ha Hb Na Nb K. unfold above in *. rewrite <- !Hk; [exact K| | | |]; auto using at_In. }
  assert (Ho : hole_ok k' h p).
  { constructor; [lia| |].
    + intros j Hj Hne Hpe. pose proof (par_lt j ltac:(lia)). apply Hsame; [lia|lia|congruence|congruence|]. apply H. lia.
    + intros j Hj Hpe H0. pose proof (par_lt j ltac:(lia)). pose proof (par_lt p H0). apply Hsame; [lia|lia|lia|lia|].
      apply (above_trans L k _ (at_ h p)); [apply T, at_In; lia|apply H; lia|]. rewrite <- Hpe at 1. apply H. lia. }
  destruct p as [|m].
  - apply (dsiftdown_ok L); [lia|exact T'|exact Ho|lia].
  - assert (Ep : Nat.div m 2 = par (S m)) by (unfold par; f_equal; lia). rewrite Ep. pose proof (par_lt (S m) ltac:(lia)) as Hpl.
    unfold dless. rewrite <- !at_fs. fold h. destruct (fmcompare k' (at_ h (par (S m))) (at_ h (S m))) eqn:Ec; unfold fmcompare in Ec.
    + apply (dsiftup_ok L); [exact Hp|exact T'|exact Ho|]. fold h. intros j Hj Hpe.
      apply (above_trans L k' _ (at_ h (par (S m)))); [apply T', at_In; lia|apply (above_lt L); exact Ec|]. apply (ho_gp _ _ _ Ho); [exact Hj|exact Hpe|lia].
    + apply (dsiftdown_ok L); [lia|exact T'|exact Ho|]. intros _. exact Ec.
Qed.

Lemma serves_ok (ops : list (hop N)) : forall (k : Z -> N) h bag, dwf1 h -> total_on k (fs (dh_q h)) -> heap_ok k (fs (dh_q h)) -> Permutation (fs (dh_q h)) bag -> serves k h bag ops.
Proof.
  induction ops as [|o ops IH]; intros k h bag W T H P; cbn [serves]; (split; [exact P|]); [exact I|].
  assert (Hin : forall x, In x bag <-> In x (fs (dh_q h))) by (intros x; split; apply Permutation_in; [symmetry; exact P|exact P]).
  destruct o as [i v|i v|i v|].
  - intros Hni Hv. cbv zeta. set (k' := kset k i v).
    assert (Hk : forall x, In x (fs (dh_q h)) -> k' x = k x).
    { intros x Hx. unfold k', kset. destruct (Z.eqb_spec i x) as [->|_]; [|reflexivity]. exfalso. apply Hni, Hin, Hx. }
    assert (T' : total_on k' (i :: fs (dh_q h))).
    { intros x [<-|Hx]; [unfold k', kset; rewrite Z.eqb_refl; exact Hv|rewrite Hk by exact Hx; apply T, Hx]. }
    assert (Pp := fs_perm _ _ (d_push_perm k' i h)). cbn [map fst] in Pp.
    apply IH.
    + apply (hl_push _ (DaryLaws L) k' i h W). intros K. apply Hni, Hin, K.
    + intros x Hx. apply T'. eapply Permutation_in; [exact Pp|exact Hx].
    + apply (d_push_heap L); [exact T'|]. intros j Hj. specialize (H j Hj). pose proof (par_lt j ltac:(lia)). unfold above in *.
      rewrite !Hk; [exact H| |]; apply at_In; lia.
    + rewrite Pp. apply perm_skip, P.
  - intros Hi Hv Hlow. cbv zeta. set (k' := kset k i v). apply Hin in Hi.
    assert (Hk : forall x, In x (fs (dh_q h)) -> x <> i -> k x = k' x).
    { intros x _ Hx. unfold k', kset. destruct (Z.eqb_spec i x); [congruence|reflexivity]. }
    assert (Eki : k' i = v) by (unfold k', kset; rewrite Z.eqb_refl; reflexivity).
    assert (T' : total_on k' (fs (dh_q h))).
    { intros x Hx. destruct (Z.eq_dec x i) as [->|Hne]; [rewrite Eki; exact Hv|rewrite <- Hk by assumption; apply T, Hx]. }
    destruct (d_increase_spec k' i h (dw_wf _ W) (dwf1_val h i W Hi)) as [p [Hp [Ei E]]]. rewrite E. eexists. split; [reflexivity|].
    pose proof (dsiftup_perm (length (dh_q h)) k' (dh_q h) p Hp) as Q. apply IH; cbn [dh_q].
    + apply dwf1_perm; assumption.
    + intros x Hx. apply T'. eapply Permutation_in; [apply fs_perm, Q|exact Hx].
    + eapply (incr_heap L k k'); eauto; [apply (dw_nd _ W)|rewrite Eki; exact Hlow].
    + rewrite <- P. apply fs_perm, Q.
  - intros Hi Hv. cbv zeta. set (k' := kset k i v). apply Hin in Hi.
    assert (Hk : forall x, In x (fs (dh_q h)) -> x <> i -> k x = k' x).
    { intros x _ Hx. unfold k', kset. destruct (Z.eqb_spec i x); [congruence|reflexivity]. }
    assert (Eki : k' i = v) by (unfold k', kset; rewrite Z.eqb_refl; reflexivity).
    assert (T' : total_on k' (fs (dh_q h))).
    { intros x Hx. destruct (Z.eq_dec x i) as [->|Hne]; [rewrite Eki; exact Hv|rewrite <- Hk by assumption; apply T, Hx]. }
    destruct (dwf1_val h i W Hi) as [u [El Hu]]. destruct (pos_in u _ i Hu (dw_uid _ (dw_wf _ W))) as [p [E1 [Hp E3]]].
    unfold d_update. rewrite El, E1. cbv zeta. eexists. split; [reflexivity|].
    set (q' := match p with O => _ | S _ => _ end).
    assert (Q : Permutation q' (dh_q h)).
    { unfold q'. destruct p; [apply dsiftdown_perm; exact Hp|]. destruct (dless k' _ _); [apply dsiftup_perm|apply dsiftdown_perm]; exact Hp. }
    apply IH; cbn [dh_q].
    + apply dwf1_perm; assumption.
    + intros x Hx. apply T'. eapply Permutation_in; [apply fs_perm, Q|exact Hx].
    + unfold q'. apply (upd_heap k k' (dh_q h) p i); auto; [rewrite E3; reflexivity|apply (dw_nd _ W)].
    + rewrite <- P. apply fs_perm, Q.
  - intros Hne. destruct (d_pop k h) as [[m h']|] eqn:E.
    2:{ exfalso. unfold d_pop in E. destruct (dh_q h) eqn:Eq; [|discriminate]. apply Permutation_nil in P. auto. }
    destruct (d_pop_spec L k h m h' E) as [u [Q [_ [_ [Em [Hl Hh]]]]]]. apply fs_perm in Q. cbn [map fst] in Q.
    exists m, h', (fs (dh_q h')). split; [reflexivity|]. split; [rewrite <- P; exact Q|]. split.
    + intros x Hx. apply Hin in Hx. apply (In_nth _ _ 0) in Hx. destruct Hx as [j [Hj Ej]]. rewrite <- Em, <- Ej.
      change (nth j (fs (dh_q h)) 0) with (at_ (fs (dh_q h)) j). apply (root_above L); auto.
    + apply IH.
      * apply (hl_pop _ (DaryLaws L) k h m h' W E).
      * intros x Hx. apply T. eapply Permutation_in; [symmetry; exact Q|right; exact Hx].
      * auto.
      * reflexivity.
Qed.
End S.

(** ** C70 *)
Theorem C70_fmdaryheap_serves_every_history :
  forall (N : Num) (L : NumLaws N) (k : Z -> N) (ops : list (hop N)), serves k (mkDh [] [] 0) [] ops.
Proof.
  intros N L k ops. apply (serves_ok L).
  - apply (hl_empty _ (DaryLaws L)).
  - intros x [].
  - intros i Hi. cbn in Hi. lia.
  - constructor.
Qed.
Print Assumptions C70_fmdaryheap_serves_every_history.

(** a stale handle is possible only when a cell is stored twice: pushed twice, popped once *)
Theorem C70_handle_of_a_cell_stored_twice_can_be_stale :
  exists (k : Z -> F64) h1 m h2, d_pop k (d_push k 7 (d_push k 7 (mkDh [] [] 0))) = Some (m, h1) /\ m = 7 /\
    d_pop k h1 = Some (m, h2) /\ d_increase k 7 h1 = Ok h1 /\ d_increase k 7 h2 = Fail UB.
Proof. exists (fun _ => n0). eexists. eexists. eexists. split; [vm_compute; reflexivity|]. split; [reflexivity|]. split; [vm_compute; reflexivity|]. split; vm_compute; reflexivity. Qed.

(** a legal history that mixes all calls *)
Fixpoint hrun {N : Num} (k : Z -> N) (h : dheap) (ops : list (hop N)) : res (list Z) :=
  match ops with
  | [] => Ok []
  | HPush i v :: r => hrun (kset k i v) (d_push (kset k i v) i h) r
  | HIncrease i v :: r => h' <- d_increase (kset k i v) i h ;; hrun (kset k i v) h' r
  | HUpdate i v :: r => h' <- d_update (kset k i v) i h ;; hrun (kset k i v) h' r
  | HPop :: r => match d_pop k h with None => Fail UB | Some (m, h') => l <- hrun k h' r ;; Ok (m :: l) end
  end.
Example C70_case : hrun (fun _ => n0 : F64) (mkDh [] [] 0)
  [HPush 10 (z64 5); HPush 11 (z64 3); HPush 12 (z64 8); HPush 13 (z64 4); HIncrease 12 (z64 1); HPop; HUpdate 11 (z64 9); HPop; HPush 12 (z64 7); HPop; HPop; HPop]
  = Ok [12; 13; 10; 12; 11].
Proof. vm_compute. reflexivity. Qed.

(** ** FMM with FMDaryHeap: no assumption about the heap is left *)
Theorem C15_fmm_with_fmdaryheap_terminates :
  forall dims (g : grid F64) init cfg goal,
  shape_ok dims -> clean_grid dims g -> (forall i, In i init -> 0 <= i < box_size dims) -> heuristic_ready dims cfg ->
  exists k st log, (forall fuel, (k <= fuel)%nat -> fmm_outcome DaryHeap cfg goal init g fuel st log) /\
    (helems DaryHeap (fs_h st) = [] \/ hd_error log = Some goal).
Proof. intros. apply (C15_fmm_terminates_doubles_any_sources DaryHeap (DaryBag F64_laws) dims); assumption. Qed.
Print Assumptions C15_fmm_with_fmdaryheap_terminates.

Theorem C17_fmm_with_fmdaryheap_accepts_the_connected_cells :
  forall dims (g : grid F64) init cfg fuel st log i,
  shape_ok dims -> clean_grid dims g -> (forall i, In i init -> 0 <= i < box_size dims) -> heuristic_ready dims cfg ->
  fmm_outcome DaryHeap cfg noGoal init g fuel st log ->
  ((exists c, getCell (fs_g st) i = Ok c /\ c_state c = FROZEN) <-> reachable dims (fun k => In k init) (free g) i) /\
  (In i log <-> reachable dims (fun k => In k init) (free g) i).
Proof. intros. eapply (C17_doubles_accept_exactly_the_connected_cells DaryHeap (DaryBag F64_laws) dims); eassumption. Qed.

Theorem C18_fmm_with_fmdaryheap_solves_eikonal :
  forall dims (g : grid XR) init fuel,
  exact_problem dims g init -> separated dims g init -> box_size dims < Z.of_nat fuel ->
  exists st log, fmm_outcome DaryHeap no_heur noGoal init g fuel st log /\
    solution dims (fun i => In i init) (free g) (slow g) (2 * Rmargin) (times (fs_g st)).
Proof.
  intros dims g init fuel HP Hs Hf.
  destruct (C15_fmm_terminates_exact DaryHeap (DaryLaws XR_laws) dims g init noGoal fuel HP Hs Hf) as [st [log [A _]]].
  exists st, log. split; [exact A|]. exact (C18_fmm_solves_eikonal DaryHeap (DaryLaws XR_laws) dims g init fuel st log HP Hs Hf A).
Qed.
Print Assumptions C18_fmm_with_fmdaryheap_solves_eikonal.

(** 3x3 map with doubles, adjacent sources: FMM over FMDaryHeap *)
Example C15_dary_case : exists st log, fmm_outcome (DaryHeap (N := F64)) no_heur noGoal [0;1] c68_grid 60 st log /\ (8 <= length log)%nat.
Proof.
  assert (H : match fmm_run (DaryHeap (N := F64)) 60 no_heur noGoal [0;1] c68_grid (hempty DaryHeap) with
              | Ok (_, log) => (8 <=? Z.of_nat (length log)) | _ => false end = true) by (vm_compute; reflexivity).
  unfold fmm_outcome. destruct (fmm_run (DaryHeap (N := F64)) 60 no_heur noGoal [0;1] c68_grid (hempty DaryHeap)) as [[st log]|]; [|discriminate].
  exists st, log. split; [reflexivity|]. apply Z.leb_le in H. lia.
Qed.

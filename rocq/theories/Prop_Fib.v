(** Prop_Fib.v - property theorems C75: FMFibHeap, the narrow band of the "FMMFib" solver,
    under any legal history of push / increase / update / popMinIdx with changing times; and
    FMM's guarantees with that heap (C15, C17, C18). *)
From Coq Require Import Reals Lra Permutation.
From Verif Require Import Base BaseFacts Num NumXR NumF64 NumLaws Grid GridFacts GridUpd Spec Obs Solution
  FMMModel HeapRef HeapLaws BagHeap DaryModel DaryHeap FibModel FibHeap Prop_FMM Prop_Heap Prop_SFMM Prop_Dary.
Open Scope Z_scope.

(** top_element is a node of the root list (what boost's pop() takes for granted) *)
Definition top_is_root (h : fheap) : Prop :=
  match fh_top h with None => fh_roots h = [] | Some e => exists t, In t (fh_roots h) /\ ft_e t = e end.

(** Along every legal history (no cell pushed while stored; increase and update only for
    stored cells; increase never for a later time; no NaN) every call succeeds, the queue
    holds exactly the pushed cells not yet popped, and popMinIdx returns a stored cell
    with the smallest time. [k]: the current times; [hop]: the steps of a history. *)
Fixpoint fserves {N : Num} (k : Z -> N) (h : fheap) (bag : list Z) (ops : list (hop N)) : Prop :=
  Permutation (map fst (f_entries h)) bag /\ top_is_root h /\
  match ops with
  | [] => True
  | HPush i v :: r => ~ In i bag -> nisnan v = false ->
      let k' := kset k i v in fserves k' (f_push k' i h) (i :: bag) r
  | HIncrease i v :: r => In i bag -> nisnan v = false -> nltb (k i) v = false ->
      let k' := kset k i v in exists h', f_increase k' i h = Ok h' /\ fserves k' h' bag r
  | HUpdate i v :: r => In i bag -> nisnan v = false ->
      let k' := kset k i v in exists h', f_update k' i h = Ok h' /\ fserves k' h' bag r
  | HPop :: r => bag <> [] ->
      exists m h' bag', f_pop k h = Some (m, h') /\ Permutation bag (m :: bag') /\
        (forall x, In x bag -> nltb (k x) (k m) = false) /\ fserves k h' bag' r
  end.

Section S.
Context {N : Num}.
Variable L : NumLaws N.
Notation fs := (map fst).

Lemma ford_root (k : Z -> N) h : ford k h -> top_is_root h.
Proof.
  intros [_ B]. unfold top_is_root. destruct (fh_top h) as [e|]; [|exact B]. destruct B as [B _]. apply in_map_iff in B. destruct B as [t [E Ht]]. exists t. auto.
Qed.

Lemma fserves_ok (ops : list (hop N)) : forall (k : Z -> N) h bag, fwf1 h -> tot k (f_entries h) -> ford k h -> Permutation (fs (f_entries h)) bag -> fserves k h bag ops.
Proof.
  induction ops as [|o ops IH]; intros k h bag W T H P; cbn [fserves]; (split; [exact P|]); (split; [exact (ford_root k h H)|]); [exact I|].
  assert (Hin : forall x, In x bag <-> In x (fs (f_entries h))) by (intros x; split; apply Permutation_in; [symmetry; exact P|exact P]).
  (* keys after a change at [i] *)
  assert (Hk : forall i v x, In x (fs (f_entries h)) -> x <> i -> k x = kset k i v x).
  { intros i v x _ Hx. unfold kset. destruct (Z.eqb_spec i x); [congruence|reflexivity]. }
  assert (Eki : forall i v, kset k i v i = v) by (intros i v; unfold kset; rewrite Z.eqb_refl; reflexivity).
  assert (Tk : forall i v, nisnan v = false -> tot (kset k i v) (f_entries h)).
  { intros i v Hv e He. destruct (Z.eq_dec (fst e) i) as [E|Hne]; [rewrite E, Eki; exact Hv|rewrite <- Hk; [apply T, He|apply in_map, He|exact Hne]]. }
  destruct o as [i v|i v|i v|].
  - intros Hni Hv. cbv zeta. set (k' := kset k i v).
    assert (Hk' : forall e, In e (f_entries h) -> k (fst e) = k' (fst e)).
    { intros e He. apply Hk; [apply in_map, He|]. intros E. apply Hni, Hin. rewrite <- E. apply in_map, He. }
    assert (T' : tot k' (f_entries h)) by (apply Tk; exact Hv).
    apply IH.
    + apply (f_push_wf1); [exact W|]. intros K. apply Hni, Hin, K.
    + rewrite f_push_ents. intros e [<-|He]; [cbn [fst]; unfold k'; rewrite Eki; exact Hv|apply T', He].
    + apply (f_push_ford L); [exact T'|unfold k'; rewrite Eki; exact Hv|].
      exact (hl_ord_ext _ (FibLaws L) k k' h W (fun _ => H) (fun x Hx => match proj1 (in_map_iff _ _ _) Hx with ex_intro _ e (conj E He) => eq_ind _ (fun y => k y = k' y) (Hk' e He) _ E end) T').
    + rewrite f_push_ents. cbn [map fst]. apply perm_skip, P.
  - intros Hi Hv Hlow. cbv zeta. set (k' := kset k i v). apply Hin in Hi.
    destruct (f_increase_wf1 k' i h W Hi) as [p [u [E1 [E2 [E3 [W2 Q]]]]]]. rewrite E1. eexists. split; [reflexivity|]. apply IH.
    + exact W2.
    + intros e He. apply (Tk i v Hv). eapply Permutation_in; [exact Q|exact He].
    + apply (f_increase_ford L k k' p i u); auto; [apply (fw_nd _ W)|intros x; apply Hk|unfold k'; rewrite Eki; exact Hlow|apply Tk; exact Hv|apply (fw_top _ (fw_wf _ W))].
    + rewrite <- P. apply Permutation_map, Q.
  - intros Hi Hv. cbv zeta. set (k' := kset k i v). apply Hin in Hi.
    destruct (f_update_wf1 L k' i h W Hi) as [p [u [E1 [E2 [E3 [W2 Q]]]]]]. rewrite E1. eexists. split; [reflexivity|]. apply IH.
    + exact W2.
    + intros e He. apply (Tk i v Hv). eapply Permutation_in; [exact Q|exact He].
    + apply (f_update_ford L k k' p i u); auto; [apply (fw_nd _ W)|intros x; apply Hk|apply Tk; exact Hv|apply H].
    + rewrite <- P. apply Permutation_map, Q.
  - intros Hne. destruct (f_pop k h) as [[m h']|] eqn:E.
    2:{ exfalso. apply (f_pop_none L k h (fw_wf _ W)) in E. rewrite E in P. apply Permutation_nil in P. auto. }
    destruct (f_pop_wf1 L k h m h' W E) as [W2 Q]. exists m, h', (fs (f_entries h')). split; [reflexivity|]. split; [rewrite <- P; exact Q|].
    destruct (hl_ord_pop _ (FibLaws L) k h m h' W (fun _ => H) E) as [A B]; [apply tot_on, T|]. split.
    + intros x Hx. apply B, Hin, Hx.
    + assert (T2 : tot k (f_entries h')).
      { apply tot_on. intros x Hx. apply (proj2 (tot_on k (f_entries h)) T). eapply Permutation_in; [symmetry; exact Q|right; exact Hx]. }
      apply IH; [exact W2|exact T2|apply A; exact T2|reflexivity].
Qed.
End S.

(** ** C75 *)
Theorem C75_fmfibheap_serves_every_history :
  forall (N : Num) (L : NumLaws N) (k : Z -> N) (ops : list (hop N)), fserves k (mkFh [] None [] 0) [] ops.
Proof.
  intros N L k ops. apply (fserves_ok L).
  - apply fwf_empty.
  - intros x [].
  - split; [constructor|reflexivity].
  - constructor.
Qed.
Print Assumptions C75_fmfibheap_serves_every_history.

(** the cells popped along a history *)
Fixpoint frun {N : Num} (k : Z -> N) (h : fheap) (ops : list (hop N)) : res (list Z) :=
  match ops with
  | [] => Ok []
  | HPush i v :: r => frun (kset k i v) (f_push (kset k i v) i h) r
  | HIncrease i v :: r => h' <- f_increase (kset k i v) i h ;; frun (kset k i v) h' r
  | HUpdate i v :: r => h' <- f_update (kset k i v) i h ;; frun (kset k i v) h' r
  | HPop :: r => match f_pop k h with None => Fail UB | Some (m, h') => l <- frun k h' r ;; Ok (m :: l) end
  end.

(** a history of pushes, improvements that cut nodes out of trees (with a cascade), changes
    in both directions and pops *)
Definition c75_ops : list (hop F64) :=
  [HPush 1 (z64 10); HPush 2 (z64 20); HPush 3 (z64 30); HPush 4 (z64 40); HPush 5 (z64 50); HPush 6 (z64 60); HPush 7 (z64 70); HPush 8 (z64 80); HPush 9 (z64 90);
   HPop; HIncrease 9 (z64 15); HIncrease 8 (z64 12); HIncrease 7 (z64 11); HPop; HUpdate 2 (z64 99); HUpdate 6 (z64 5); HPop; HIncrease 5 (z64 1); HPop; HPop; HPop; HPop; HPop; HPop].
Example C75_case : frun (fun _ => n0 : F64) (mkFh [] None [] 0) c75_ops = Ok [1; 7; 6; 5; 8; 9; 3; 4; 2].
Proof. vm_compute. reflexivity. Qed.

(** with a NaN time the guarantee is lost: popMinIdx can return a cell although a stored
    cell has a smaller time, and top_element can be a node that is not a root *)
Theorem C75_nan_times_break_the_queue :
  exists (x : F64), nisnan x = true /\
  (exists (k : Z -> F64) h m h2, k = kset (kset (kset (kset (kset (fun _ => n0) 4 (z64 3)) 3 (z64 5)) 2 x) 1 (z64 1)) 0 n0 /\
     h = f_push k 0 (f_push k 1 (f_push k 2 (f_push k 3 (f_push k 4 (mkFh [] None [] 0))))) /\
     match f_pop k h with Some (0, h1) => f_pop k h1 = Some (m, h2) | _ => False end /\
     In 1 (map fst (f_entries h2)) /\ nltb (k 1) (k m) = true) /\
  (exists (k k' : Z -> F64) h h2, k = kset (kset (kset (fun _ => n0) 3 (z64 5)) 2 x) 1 (z64 7) /\ k' = kset k 1 (z64 2) /\
     h = f_push k 0 (f_push k 1 (f_push k 2 (f_push k 3 (mkFh [] None [] 0)))) /\
     match f_pop k h with Some (0, h1) => f_increase k' 1 h1 = Ok h2 | _ => False end /\ ~ top_is_root h2).
Proof.
  exists (nsub ninf ninf). split; [vm_compute; reflexivity|]. split.
  - eexists. eexists. eexists. eexists. split; [reflexivity|]. split; [reflexivity|]. split; [vm_compute; reflexivity|]. split; [vm_compute; auto|vm_compute; reflexivity].
  - eexists. eexists. eexists. eexists. split; [reflexivity|]. split; [reflexivity|]. split; [reflexivity|]. split; [vm_compute; reflexivity|].
    intros H. vm_compute in H. destruct H as [t H]. repeat match goal with H : _ /\ _ |- _ => destruct H | H : _ \/ _ |- _ => destruct H | H : False |- _ => destruct H end; subst; discriminate.
Qed.

(** a stale handle is possible only when a cell is stored twice: pushed twice, popped once
    or twice *)
Theorem C75_handle_of_a_cell_stored_twice_can_be_stale :
  exists (k : Z -> F64) h1 h2, f_pop k (f_push k 7 (f_push k 7 (mkFh [] None [] 0))) = Some (7, h1) /\
    f_pop k h1 = Some (7, h2) /\ f_increase k 7 h1 = Ok h1 /\ f_increase k 7 h2 = Fail UB.
Proof. exists (fun _ => n0). eexists. eexists. split; [vm_compute; reflexivity|]. split; [vm_compute; reflexivity|]. split; vm_compute; reflexivity. Qed.

(** ** FMM with FMFibHeap: no assumption about the heap is left *)
Theorem C15_fmm_with_fmfibheap_terminates :
  forall dims (g : grid F64) init cfg goal,
  shape_ok dims -> clean_grid dims g -> (forall i, In i init -> 0 <= i < box_size dims) -> heuristic_ready dims cfg ->
  exists k st log, (forall fuel, (k <= fuel)%nat -> fmm_outcome FibHeap cfg goal init g fuel st log) /\
    (helems FibHeap (fs_h st) = [] \/ hd_error log = Some goal).
Proof. intros. apply (C15_fmm_terminates_doubles_any_sources FibHeap (FibBag F64_laws) dims); assumption. Qed.
Print Assumptions C15_fmm_with_fmfibheap_terminates.

Theorem C17_fmm_with_fmfibheap_accepts_the_connected_cells :
  forall dims (g : grid F64) init cfg fuel st log i,
  shape_ok dims -> clean_grid dims g -> (forall i, In i init -> 0 <= i < box_size dims) -> heuristic_ready dims cfg ->
  fmm_outcome FibHeap cfg noGoal init g fuel st log ->
  ((exists c, getCell (fs_g st) i = Ok c /\ c_state c = FROZEN) <-> reachable dims (fun k => In k init) (free g) i) /\
  (In i log <-> reachable dims (fun k => In k init) (free g) i).
Proof. intros. eapply (C17_doubles_accept_exactly_the_connected_cells FibHeap (FibBag F64_laws) dims); eassumption. Qed.

Theorem C18_fmm_with_fmfibheap_solves_eikonal :
  forall dims (g : grid XR) init fuel,
  exact_problem dims g init -> separated dims g init -> box_size dims < Z.of_nat fuel ->
  exists st log, fmm_outcome FibHeap no_heur noGoal init g fuel st log /\
    solution dims (fun i => In i init) (free g) (slow g) (2 * Rmargin) (times (fs_g st)).
Proof.
  intros dims g init fuel HP Hs Hf.
  destruct (C15_fmm_terminates_exact FibHeap (FibLaws XR_laws) dims g init noGoal fuel HP Hs Hf) as [st [log [A _]]].
  exists st, log. split; [exact A|]. exact (C18_fmm_solves_eikonal FibHeap (FibLaws XR_laws) dims g init fuel st log HP Hs Hf A).
Qed.
Print Assumptions C18_fmm_with_fmfibheap_solves_eikonal.

(** 3x3 map with doubles, adjacent sources: FMM over FMFibHeap *)
Example C15_fib_case : exists st log, fmm_outcome (FibHeap (N := F64)) no_heur noGoal [0;1] c68_grid 60 st log /\ (8 <= length log)%nat.
Proof.
  assert (H : match fmm_run (FibHeap (N := F64)) 60 no_heur noGoal [0;1] c68_grid (hempty FibHeap) with
              | Ok (_, log) => (8 <=? Z.of_nat (length log)) | _ => false end = true) by (vm_compute; reflexivity).
  unfold fmm_outcome. destruct (fmm_run (FibHeap (N := F64)) 60 no_heur noGoal [0;1] c68_grid (hempty FibHeap)) as [[st log]|]; [|discriminate].
  exists st, log. split; [reflexivity|]. apply Z.leb_le in H. lia.
Qed.

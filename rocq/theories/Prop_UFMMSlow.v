(** Prop_UFMMSlow.v - property theorems C93: UFMM on maps with cells slower than the span of its queue. *)
From Coq Require Import Reals Lra Permutation.
From Verif Require Import Base BaseFacts Num NumXR NumF64 NumLaws Grid GridFacts GridUpd GridMore Eikonal
  FMMModel HeapRef HeapLaws UntidyModel UntidySpec SweepModel QueueModel SolverModel Spec Obs EikR Solution XGrid FMMStruct FMMAbs FMMX Relax Exact Evolve Bound
  Untidy Lifecycle UFMMStruct UntidyX UntidyL UFMMX UFMML Examples Prop_FMM Prop_Bound Prop_Untidy Prop_Heap Prop_UFMM.
Open Scope Z_scope.

(** Exact arithmetic, any map: when the slowest cell takes [F] to cross and F * cells * buckets / increment
    is below 2^32, UFMM ends without undefined behaviour.  Every accepted cell has a time, not before the
    exact one and not after F times the number of accepted cells; without goal the accepted cells are
    exactly the cells connected to the sources. *)
Theorem C93_ufmm_is_defined_on_slow_maps :
  forall dims (g : grid XR) init size inc F goal X fuel,
  exact_problem dims g init -> separated dims g init ->
  exact_solution dims (fun i => In i init) (free g) (slow g) X ->
  0 < size -> 2 * size <= 4294967296 -> (0 < inc)%R ->
  (0 <= F)%R -> (forall i, free g i -> (slow g i <= F)%R) ->
  (F * IZR (box_size dims) * IZR size / inc < 4294967296)%R ->
  box_size dims < Z.of_nat fuel ->
  exists s log, ufmm_run fuel goal init g (uq_new size (XFin inc : XR)) = Ok (s, log) /\
  (forall i, accepted (uf_g s) i -> times (uf_g s) i <> None) /\
  (forall i t, times (uf_g s) i = Some t -> exists x, X i = Some x /\ (x <= t <= F * INR (length log))%R) /\
  ((forall i, accepted (uf_g s) i <-> reachable dims (fun k => In k init) (free g) i) \/ hd_error log = Some goal).
Proof.
  intros dims g init size inc F goal X fuel HP Hsep HX Hs Hs2 Hi HF0 HF Hfit Hfuel.
  pose proof HP as [[H2 Hlt] [[Hg Hc] [Hre [Hnd Hr]]]].
  destruct (UI_new (N := XR) size (XFin inc) Hs) as [U B].
  assert (Hfr : forall i (c : cell XR), getCell g i = Ok c -> c_val c = XPInf) by (intros k c Hk; apply (Hc k c Hk)).
  assert (Hop : forall i (c : cell XR), getCell g i = Ok c -> c_state c = OPEN) by (intros k c Hk; apply (Hc k c Hk)).
  assert (Hfu : (Z.to_nat (box_size dims) < fuel)%nat) by (pose proof (box_size_pos _ (dims2_proper' _ H2)); lia).
  assert (Hq0 : exists t, uq_t0 (uq_new size (XFin inc : XR)) = XFin t /\ (0 <= t)%R) by (exists 0%R; split; [reflexivity|lra]).
  destruct (ufmm_L dims H2 Hlt init Hnd Hr g Hg Hre Hfr Hop Hsep X HX size inc Hs Hs2 Hi F HF0 HF Hfit
    (uq_new size (XFin inc : XR)) U B eq_refl eq_refl (new_delta size inc Hs) Hq0 goal fuel Hfu)
    as [s [log [E [A1 [A2 [A3 _]]]]]].
  assert (Hb : band_ok size (XFin inc : XR)) by (apply C65_band_exact; [lia|exact Hi]).
  destruct (C65_ufmm_accepts_each_connected_cell_once XR dims g init goal fuel size (XFin inc) s log
     (conj H2 Hlt) (conj Hg Hc) (conj Hnd Hr) Hsep Hb E) as [_ [_ [L _]]].
  exists s, log. split; [exact E|]. split; [intros i K; apply A1, L, K|]. split; [exact A2|].
  destruct A3 as [A3|[r ->]]; [left|right; reflexivity]. intros i. rewrite L. apply A3.
Qed.
Print Assumptions C93_ufmm_is_defined_on_slow_maps.

(** The bound is the queue's own: a time whose bucket number would be 2^32 or more cannot be
    pushed or moved (the conversion to unsigned is undefined). *)
Theorem C93_far_times_have_no_bucket :
  forall size inc q h S T e t t0 b, 0 < size -> 2 * size <= 4294967296 -> (0 < inc)%R ->
  thist size inc q h S T -> S <> [] -> uq_t0 q = XFin t0 ->
  (4294967296 <= (t - t0) * IZR size / inc)%R ->
  uq_push q e (XFin t : XR) = Fail UB /\ uq_increase q e b (XFin t : XR) = Fail UB.
Proof.
  intros size inc q h S T e t t0 b Hs Hs2 Hi H Hne E0 Ht.
  destruct (thist_QI size inc Hs Hs2 Hi q h S T H) as [_ K]. destruct (K Hne) as [t1 I].
  assert (t1 = t0) by (pose proof (qi_t0 _ _ _ _ _ I) as Q; rewrite E0 in Q; congruence). subst t1.
  assert (IL : QL size inc (st_ T) q t0).
  { destruct I as [A1 A2 A3 A4 A5 A6]. constructor; auto. intros x i Hx1 Hx2. destruct (A6 x i Hx1 Hx2) as [r [K1 K2]]. exists r.
    split; [exact K1|]. unfold in_slot, in_low in *. lra. }
  pose proof (bucket_far size inc Hi (st_ T) q t0 t IL Ht) as HB.
  pose proof (uhist_spec _ _ _ (thist_uhist size inc Hs Hs2 _ _ _ _ H)) as [U [_ [_ [P _]]]].
  assert (Hnb : uq_nb q <> 0) by (rewrite (ui_nb _ U), (Permutation_length P); destruct S; [congruence|cbn; lia]).
  split.
  - unfold uq_push, uq_empty. destruct (Z.eqb_spec (uq_nb q) 0); [contradiction|]. rewrite HB. reflexivity.
  - unfold uq_increase. rewrite HB. reflexivity.
Qed.
Print Assumptions C93_far_times_have_no_bucket.

(** Doubles, the default queue: a free cell of velocity 1/10^8 (well above the occupancy threshold) next to
    the source is enough; FMM computes the same map. *)
Definition c93_grid : grid F64 := vgrid [2;2] (n1 : F64) [z64 1; ndiv (z64 1) (z64 100000000); z64 1; z64 1].
Theorem C93_a_very_slow_cell_is_undefined :
  ufmm_run 50 noGoal [0] c93_grid (uq_new 1000 (nofZ 2)) = Fail UB /\
  (exists c, getCell c93_grid 1 = Ok c /\ isOccupied c = false) /\
  exists st log, fmm_run RefHeap 50 no_heur noGoal [0] c93_grid (hempty RefHeap) = Ok (st, log) /\ length log = 4%nat.
Proof.
  split; [|split].
  - match goal with |- ?x = _ => assert (K : match x with Fail UB => true | _ => false end = true) by (vm_compute; reflexivity); destruct x as [r|[| |]] end;
      try discriminate K; reflexivity.
  - eexists. split; [reflexivity|]. vm_compute. reflexivity.
  - assert (K : match fmm_run RefHeap 50 no_heur noGoal [0] c93_grid (hempty RefHeap) with Ok (_, l) => Z.of_nat (length l) | _ => 0 end = 4) by (vm_compute; reflexivity).
    destruct (fmm_run RefHeap 50 no_heur noGoal [0] c93_grid (hempty RefHeap)) as [[st l]|]; [|discriminate K]. exists st, l. split; [reflexivity|lia].
Qed.
Print Assumptions C93_a_very_slow_cell_is_undefined.

(** the hypotheses of the first theorem hold of a 2x2 map with a cell 50 times slower than the span of the
    default queue (C66 does not cover it), which is reached *)
Definition c93_exact : grid XR := vgrid [2;2] (XFin 1 : XR) (map XFin [1; / 100; 1; 1]%R : list XR).
Lemma c93_cells i c : getCell c93_exact i = Ok c -> exists v, c_occ c = XFin v /\ (v = 1 \/ v = / 100)%R.
Proof.
  intros Hc. unfold getCell, c93_exact, vgrid in Hc. apply vget_ok in Hc. destruct Hc as [_ Hc]. cbn in Hc.
  destruct (Z.to_nat i) as [|[|[|[|[|]]]]]; cbn in Hc; inversion Hc; subst; eexists; (split; [reflexivity|]); auto.
Qed.
Example C93_case : exact_problem [2;2] c93_exact [0] /\ separated [2;2] c93_exact [0] /\
  (forall i, free c93_exact i -> (slow c93_exact i <= 100)%R) /\ slow c93_exact 1 = 100%R /\ free c93_exact 1 /\
  (100 * IZR (box_size [2;2]%Z) * IZR 1000 / 2 < 4294967296)%R.
Proof.
  split; [|split; [|split; [|split; [|split]]]].
  - split; [split; [repeat constructor; lia|cbn; lia]|]. split; [apply vgrid_clean; reflexivity|]. split.
    + split; [exists 1%R; split; [reflexivity|lra]|]. intros i c Hc. destruct (c93_cells i c Hc) as [v [K _]]. eauto.
    + split; [repeat constructor; cbn; lia|]. intros i [<-|[]]; cbn; lia.
  - intros i j [<-|[]] [<-|[]] Ha. exfalso. exact (adjacent_irrefl _ _ Ha).
  - intros i [c [Hc _]]. destruct (c93_cells i c Hc) as [v [K K2]]. unfold slow. rewrite Hc, K. cbn. assert (1 / / 100 = 100)%R by field. destruct K2 as [-> | ->]; lra.
  - change (1 / / 100 = 100)%R. field.
  - eexists. split; [reflexivity|]. unfold isOccupied. cbn [c_occ with_occ]. 
    rewrite xr_margin. cbn. unfold Rltb. destruct (Rlt_dec (/ 100) Rmargin) as [L|L]; [|reflexivity]. exfalso. unfold Rmargin in L. lra.
  - cbn. lra.
Qed.

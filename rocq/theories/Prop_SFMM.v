(** Prop_SFMM.v - property theorems C67-C69 and additions to C15, C17, C27: the FMM loop over
    any bag-like narrow band (SFMM's FMPriorityQueue included), heuristic values, and the
    binary heap itself. *)
From Coq Require Import Reals Lra Permutation.
From Verif Require Import Base BaseFacts Num NumXR NumF64 NumLaws NumWf Grid GridFacts GridUpd GridMore Spec Obs Eikonal EikR EikX Solution XGrid
  FMMModel HeapRef HeapLaws BagHeap FMMStruct FMMReach Frame Term UntidyModel UFMMStruct SFMMStruct Examples FMMX Prop_FMM Prop_Sweep Prop_Heap Prop_Star.
Open Scope Z_scope.

(** what every run leaves: every stored cell sits in the map, every accepted cell is FROZEN *)
Section Gen.
Context {N : Num}.
Variable L : NumLaws N.
Variable HO : HeapOps N.
Variable BL : BagLaws HO.
Variable dims : list Z.
Hypothesis Hs : shape_ok dims.
Variable cfg : fmm_cfg (N := N).
Variable init : list Z.
Variable g : grid N.
Hypothesis Hh : heuristic_ready dims cfg.
Hypothesis Hc : clean_grid dims g.
Hypothesis Hr : forall i, In i init -> 0 <= i < box_size dims.
Variable GI : grid N -> Prop.
Variables (OKv Good : N -> Prop).

(** the value a heuristic strategy must leave in cell [i] *)
Definition heuristic_value (i : Z) (h : N) : Prop :=
  match fc_strat cfg with
  | NOHEUR => h = n0
  | TIME => exists d c, getPrecomputedDistance cfg (mk_shape dims) i = Ok d /\ getCell g i = Ok c /\ h = ndiv d (c_occ c)
  | DISTANCE => getPrecomputedDistance cfg (mk_shape dims) i = Ok h
  end.

Definition run_ok (goal : Z) (st : fmm_state HO) (log : list Z) : Prop :=
  (helems HO (fs_h st) = [] \/ hd_error log = Some goal) /\
  (forall i, In i log <-> (exists c, getCell (fs_g st) i = Ok c /\ c_state c = FROZEN)) /\
  (forall i, In i log \/ In i (helems HO (fs_h st)) -> 0 <= i < box_size dims /\ reachable dims (fun k => In k init) (free g) i) /\
  (helems HO (fs_h st) = [] -> forall i, In i log <-> reachable dims (fun k => In k init) (free g) i) /\
  (forall i c, In i log \/ In i (helems HO (fs_h st)) -> getCell (fs_g st) i = Ok c -> heuristic_value i (c_h c)).

Lemma gen_run goal : GI g ->
  (forall g, GI g -> grid_ok dims g) ->
  (forall g i s g', GI g -> setState g i s = Ok g' -> GI g') ->
  (forall g i h g', GI g -> setHeuristicTime g i h = Ok g' -> GI g') ->
  (forall g i u g', GI g -> OKv u -> setArrivalTime g i u = Ok g' -> GI g') -> OKv n0 ->
  (forall g i c u, GI g -> 0 <= i < box_size dims -> getCell g i = Ok c -> isOccupied c = false -> solveEikonal g i = Ok u -> OKv u) ->
  (forall u x, OKv u -> isTimeBetterThan u x = true -> Good u) ->
  well_founded (fun x y : N => isTimeBetterThan x y = true /\ Good x) ->
  exists k st log, (forall fuel, (k <= fuel)%nat -> fmm_outcome HO cfg goal init g fuel st log) /\ run_ok goal st log.
Proof.
  intros G1 G2 G3 G4 G5 G6 G7 G8 G9. destruct Hs as [H2 Hlt]. destruct Hc as [Hg Hcl].
  destruct (bag_run L HO BL dims H2 Hlt cfg init Hh g GI OKv Good G2 G3 G4 G5 G6 G7 G8 G9 G1) with (goal := goal) as [k [st [log [Hk [B [C [S E]]]]]]].
  { intros i c Hi. apply (Hcl i c Hi). } { exact Hr. }
  exists k, st, log. split; [exact Hk|]. pose proof (BI_grid HO BL dims cfg init g GI G2 _ _ _ B) as Hgs.
  split; [exact E|]. split; [|split; [|split]].
  - intros i. rewrite <- (bi_fr _ _ _ _ _ _ _ _ _ _ B i). unfold cst. split.
    + destruct (getCell (fs_g st) i) as [c|]; [|discriminate]. intros K. exists c. split; [reflexivity|congruence].
    + intros [c [-> K]]. congruence.
  - intros i [Hi|Hi]; [apply (bi_log _ _ _ _ _ _ _ _ _ _ B i Hi)|apply (bi_rng _ _ _ _ _ _ _ _ _ _ B i Hi)].
  - intros Ee i. eapply bag_done; eauto.
  - intros i c Hi Hci. assert (Hir : 0 <= i < box_size dims) by (destruct Hi as [Hi|Hi]; [apply (bi_log _ _ _ _ _ _ _ _ _ _ B i Hi)|apply (bi_rng _ _ _ _ _ _ _ _ _ _ B i Hi)]).
    destruct (getCell_in dims g i Hg Hir) as [c0 Hc0].
    pose proof (bi_hin _ _ _ _ _ _ _ _ _ _ B i c c0) as K. specialize (K ltac:(tauto) Hci Hc0).
    unfold hv in K. unfold heuristic_value. destruct Hg as [Esh _]. rewrite Esh in K. destruct (fc_strat cfg).
    + rewrite K. apply (Hcl i c0 Hc0).
    + destruct K as [d [K1 K2]]. exists d, c0. auto.
    + destruct K as [d [K1 ->]]. exact K1.
Qed.
End Gen.

Section Inst.
Variable dims : list Z.
Hypothesis Hs : shape_ok dims.

Lemma run_doubles (HO : HeapOps F64) (BL : BagLaws HO) cfg init (g : grid F64) goal :
  heuristic_ready dims cfg -> clean_grid dims g -> (forall i, In i init -> 0 <= i < box_size dims) ->
  exists k st log, (forall fuel, (k <= fuel)%nat -> fmm_outcome HO cfg goal init g fuel st log) /\ run_ok HO dims cfg init g goal st log.
Proof.
  intros Hh Hc Hr. refine (gen_run F64_laws HO BL dims Hs cfg init g Hh Hc Hr (grid_ok dims) (fun _ => True) Good64 goal (proj1 Hc) (fun _ H => H) _ _ _ Logic.I
    (fun _ _ _ _ _ _ _ _ _ => Logic.I) (fun _ _ _ _ => Logic.I) Good64_wf); intros; eapply updCell_grid_ok; eauto.
Qed.

Definition OKX (t : XR) : Prop := t = XPInf \/ exists r, t = XFin r /\ (0 <= r)%R.
Lemma run_exact (HO : HeapOps XR) (BL : BagLaws HO) cfg init (g : grid XR) goal :
  heuristic_ready dims cfg -> clean_grid dims g -> reals_ok g -> (forall i, In i init -> 0 <= i < box_size dims) ->
  exists k st log, (forall fuel, (k <= fuel)%nat -> fmm_outcome HO cfg goal init g fuel st log) /\ run_ok HO dims cfg init g goal st log.
Proof.
  intros Hh Hc Hre Hr. destruct Hs as [H2 Hlt].
  eapply (gen_run XR_laws HO BL dims Hs cfg init g Hh Hc Hr (GIX dims) OKX xgood).
  - split; [apply Hc|]. split; [|exact Hre]. intros i c K. left. apply (proj2 Hc i c K).
  - intros g1 [A _]. exact A.
  - apply GIX_state.
  - intros g1 i h g2 [A [B C]] H. split; [eapply updCell_grid_ok; eauto|]. split; [eapply upd_times_ok; eauto|eapply upd_reals_ok; eauto].
  - intros g1 i u g2 [A [B C]] Hu H. split; [eapply updCell_grid_ok; eauto|]. split; [|eapply upd_reals_ok; eauto].
    intros j c Hj. rewrite (updCell_get _ _ _ _ j H) in Hj. destruct (i =? j); [|exact (B j c Hj)].
    destruct (getCell g1 j) as [c0|]; [|discriminate]. injection Hj as <-. exact Hu.
  - right. exists 0%R. split; [reflexivity|lra].
  - intros g1 i c u [A [B C]] Hi Hci Ho Hu. assert (Hfr : free g1 i) by (exists c; auto).
    rewrite (solveEikonal_X dims g1 i H2 Hlt A B C Hfr Hi) in Hu. injection Hu as <-.
    destruct (eik dims (slow g1 i) (times g1) i) as [u|] eqn:E; [right|left; reflexivity]. exists u. split; [reflexivity|].
    eapply (eik_nonneg dims H2 g1 i u); eauto.
  - intros u x [->|[r [-> Hr0]]] Hb; [|exact Hr0]. exfalso. unfold isTimeBetterThan in Hb. rewrite xr_margin in Hb. cbn in Hb. destruct x; discriminate.
  - apply better_wf_XR.
Qed.
End Inst.

(** ** C27: the queue of SFMM stores a second entry when a time improves *)
Theorem C27_improving_stores_a_second_entry :
  forall (N : Num) (k : Z -> N) i h,
  exists h', hincrease StdHeap k i h = Ok h' /\ Permutation (helems StdHeap h') (i :: helems StdHeap h).
Proof. intros N k i h. exists (std_push k i h). split; [reflexivity|]. apply std_push_perm. Qed.
Print Assumptions C27_improving_stores_a_second_entry.

(** so a queue holding [i] once holds it twice afterwards, and [pop] takes one copy *)
Theorem C27_pop_takes_one_copy :
  forall (N : Num) (k : Z -> N) h m h', hpop StdHeap k h = Some (m, h') ->
  Permutation (helems StdHeap h) (m :: helems StdHeap h') /\ hd_error h = Some m.
Proof.
  intros N k h m h' H. split; [exact (std_pop_perm k h m h' H)|]. cbn in H. unfold std_pop in H. destruct h; [discriminate|]. injection H as <- _. reflexivity.
Qed.

(** ** C69: the queue while keys stay put *)
(** any sequence of pushes, increases and pops under fixed keys *)
Inductive qop := QPush (i : Z) | QIncrease (i : Z) | QPop.
Fixpoint qrun {N : Num} (HO : HeapOps N) (k : Z -> N) (ops : list qop) (h : heap HO) : res (heap HO * list Z) :=
  match ops with
  | [] => Ok (h, [])
  | QPush i :: r => qrun HO k r (hpush HO k i h)
  | QIncrease i :: r => h' <- hincrease HO k i h ;; qrun HO k r h'
  | QPop :: r => match hpop HO k h with
                 | None => Fail UB
                 | Some (m, h') => ' p <- qrun HO k r h' ;; let '(h2, out) := p in Ok (h2, m :: out)
                 end
  end.
(** every popped element is minimal among what the queue holds at that point; the
    content of the queue is tracked as a bag *)
Fixpoint pops_minima {N : Num} (k : Z -> N) (ops : list qop) (bag : list Z) (out : list Z) (final : list Z) : Prop :=
  match ops with
  | [] => out = [] /\ Permutation bag final
  | QPush i :: r => pops_minima k r (i :: bag) out final
  | QIncrease i :: r => pops_minima k r (i :: bag) out final
  | QPop :: r => exists m out' bag', out = m :: out' /\ Permutation bag (m :: bag') /\
      (forall x, In x bag -> nltb (k x) (k m) = false) /\ pops_minima k r bag' out' final
  end.

Lemma total_perm {N : Num} (k : Z -> N) a b : Permutation a b -> total_on k a -> total_on k b.
Proof. intros P T x Hx. apply T. eapply Permutation_in; [symmetry; exact P|exact Hx]. Qed.
Lemma minima_perm {N : Num} (k : Z -> N) ops : forall bag bag2 out final, Permutation bag bag2 -> pops_minima k ops bag out final -> pops_minima k ops bag2 out final.
Proof.
  induction ops as [|[i|i|] r IH]; intros bag bag2 out final P H; cbn [pops_minima] in *.
  - destruct H as [A B]. split; [exact A|]. rewrite <- P. exact B.
  - eapply IH; [|exact H]. apply perm_skip, P.
  - eapply IH; [|exact H]. apply perm_skip, P.
  - destruct H as [m [out' [bag' [A [B [C D]]]]]]. exists m, out', bag'. split; [exact A|]. split; [rewrite <- P; exact B|]. split; [|exact D].
    intros x Hx. apply C. eapply Permutation_in; [symmetry; exact P|exact Hx].
Qed.

Definition keys_ok {N : Num} (k : Z -> N) (ops : list qop) : Prop := forall i, In (QPush i) ops \/ In (QIncrease i) ops -> nisnan (k i) = false.

Lemma qrun_ok {N : Num} (L : NumLaws N) (k : Z -> N) ops : forall h h' out, keys_ok k ops -> total_on k h -> heap_ok k h ->
  qrun StdHeap k ops h = Ok (h', out) -> heap_ok k h' /\ pops_minima k ops h out h'.
Proof.
  induction ops as [|o r IH]; intros h h' out T T2 H E; cbn [qrun pops_minima] in *; [injection E as <- <-; auto|].
  assert (Tr : keys_ok k r) by (intros x [Hx|Hx]; apply T; [left|right]; right; exact Hx).
  destruct o as [i|i|].
  - change (hpush StdHeap k i h) with (std_push k i h) in E.
    assert (Ti : total_on k (i :: h)) by (intros x [<-|Hx]; [apply T; left; left; reflexivity|apply T2; exact Hx]).
    apply IH in E; [|exact Tr|apply (total_perm k (i :: h)); [symmetry; apply std_push_perm|exact Ti]|apply (std_push_ok L); [exact Ti|exact H]].
    destruct E as [A B]. split; [exact A|]. eapply minima_perm; [|exact B]. apply std_push_perm.
  - change (hincrease StdHeap k i h) with (Ok (std_push k i h)) in E. cbn [bind] in E.
    assert (Ti : total_on k (i :: h)) by (intros x [<-|Hx]; [apply T; right; left; reflexivity|apply T2; exact Hx]).
    apply IH in E; [|exact Tr|apply (total_perm k (i :: h)); [symmetry; apply std_push_perm|exact Ti]|apply (std_push_ok L); [exact Ti|exact H]].
    destruct E as [A B]. split; [exact A|]. eapply minima_perm; [|exact B]. apply std_push_perm.
  - change (hpop StdHeap k h) with (std_pop k h) in E. destruct (std_pop k h) as [[m h1]|] eqn:Ep; [|discriminate].
    apply bind_ok in E. destruct E as [[h2 out2] [E1 E2]]. injection E2 as <- <-.
    destruct (std_pop_ok L k h m h1) as [A B]; [exact T2|exact H|exact Ep|].
    assert (T3 : total_on k h1) by (intros x Hx; apply T2; eapply Permutation_in; [symmetry; exact (std_pop_perm k h m h1 Ep)|right; exact Hx]).
    destruct (IH h1 h2 out2 Tr T3 A E1) as [C D]. split; [exact C|]. exists m, out2, h1. split; [reflexivity|]. split; [exact (std_pop_perm k h m h1 Ep)|]. split; [exact B|exact D].
Qed.

Theorem C69_priority_queue_returns_minima :
  forall (N : Num) (L : NumLaws N) (k : Z -> N) ops h out,
  (forall i, In (QPush i) ops \/ In (QIncrease i) ops -> nisnan (k i) = false) ->
  qrun StdHeap k ops (hempty StdHeap) = Ok (h, out) ->
  pops_minima k ops [] out (helems StdHeap h).
Proof.
  intros N L k ops h out T E. apply (qrun_ok L k ops [] h out T) in E; [apply E|intros x []|]. intros i Hi. cbn in Hi. lia.
Qed.
Print Assumptions C69_priority_queue_returns_minima.

(** popping is possible exactly as often as something is stored *)
Theorem C69_pop_fails_only_when_empty :
  forall (N : Num) (k : Z -> N) h, hpop StdHeap k h = None <-> helems StdHeap h = [].
Proof. intros N k h. apply (bl_pop_none _ (StdBag (N := N)) k h Logic.I). Qed.

(** draining the queue sorts its content *)
Lemma drain_sorted {N : Num} (L : NumLaws N) (k : Z -> N) : forall n bag out final,
  pops_minima k (repeat QPop n) bag out final -> length bag = n ->
  Permutation bag out /\ final = [] /\ forall a b pre mid post, out = pre ++ a :: mid ++ b :: post -> nltb (k b) (k a) = false.
Proof.
  induction n as [|n IH]; intros bag out final H Hl; cbn [repeat pops_minima] in H.
  - destruct H as [-> P]. destruct bag; [|discriminate Hl]. apply Permutation_nil in P. split; [constructor|]. split; [exact P|].
    intros a b pre mid post E. destruct pre; discriminate.
  - destruct H as [m [out' [bag' [-> [P [Hm H]]]]]]. assert (Hl' : length bag' = n) by (apply Permutation_length in P; cbn in P; lia).
    destruct (IH bag' out' final H Hl') as [A [B C]]. split; [rewrite P; apply perm_skip, A|]. split; [exact B|].
    intros a b pre mid post E. destruct pre as [|z pre]; cbn in E; injection E as -> E.
    + apply Hm. eapply Permutation_in; [symmetry; exact P|]. right. eapply Permutation_in; [symmetry; exact A|]. rewrite E. apply in_or_app. right. left. reflexivity.
    + eapply C. exact E.
Qed.

Lemma qrun_app {N : Num} (HO : HeapOps N) (k : Z -> N) a b : forall h h2 out, qrun HO k (a ++ b) h = Ok (h2, out) ->
  exists h1 o1 o2, qrun HO k a h = Ok (h1, o1) /\ qrun HO k b h1 = Ok (h2, o2) /\ out = o1 ++ o2.
Proof.
  induction a as [|[i|i|] a IH]; intros h h2 out E; cbn [qrun app] in *.
  - exists h, [], out. auto.
  - apply IH. exact E.
  - apply bind_ok in E. destruct E as [h1 [E1 E2]]. rewrite E1. cbn [bind]. apply IH. exact E2.
  - destruct (hpop HO k h) as [[m h1]|]; [|discriminate]. apply bind_ok in E. destruct E as [[h3 o3] [E1 E2]]. injection E2 as <- <-.
    apply IH in E1. destruct E1 as [h4 [o4 [o5 [K1 [K2 ->]]]]]. rewrite K1. cbn [bind]. exists h4, (m :: o4), o5. auto.
Qed.
Lemma push_all {N : Num} (k : Z -> N) l : forall h, exists h1, qrun StdHeap k (map QPush l) h = Ok (h1, []) /\ Permutation h1 (rev l ++ h).
Proof.
  induction l as [|x l IH]; intros h; cbn [map qrun rev app]; [exists h; auto|].
  destruct (IH (std_push k x h)) as [h1 [E P]]. exists h1. split; [exact E|]. rewrite P, std_push_perm, <- app_assoc. reflexivity.
Qed.
Lemma pop_all {N : Num} (k : Z -> N) n : forall h, length h = n -> exists h1 out, qrun StdHeap k (repeat QPop n) h = Ok (h1, out).
Proof.
  induction n as [|n IH]; intros h Hl; cbn [repeat qrun]; [eauto|].
  change (hpop StdHeap k h) with (std_pop k h). destruct (std_pop k h) as [[m h1]|] eqn:E.
  - destruct (IH h1) as [h2 [out E2]]; [apply std_pop_perm, Permutation_length in E; cbn in E; lia|]. rewrite E2. cbn [bind]. eauto.
  - unfold std_pop in E. destruct h; [discriminate Hl|discriminate].
Qed.
Lemma qrun_join {N : Num} (HO : HeapOps N) (k : Z -> N) a b : forall h h1 o1 h2 o2, qrun HO k a h = Ok (h1, o1) -> qrun HO k b h1 = Ok (h2, o2) ->
  qrun HO k (a ++ b) h = Ok (h2, o1 ++ o2).
Proof.
  induction a as [|[i|i|] a IH]; intros h h1 o1 h2 o2 E1 E2; cbn [qrun app] in *.
  - injection E1 as <- <-. exact E2.
  - eapply IH; eauto.
  - apply bind_ok in E1. destruct E1 as [h3 [K1 K2]]. rewrite K1. cbn [bind]. eapply IH; eauto.
  - destruct (hpop HO k h) as [[m h3]|]; [|discriminate]. apply bind_ok in E1. destruct E1 as [[h4 o4] [K1 K2]]. injection K2 as <- <-.
    rewrite (IH _ _ _ _ _ K1 E2). reflexivity.
Qed.

Theorem C69_push_all_then_pop_all_sorts :
  forall (N : Num) (L : NumLaws N) (k : Z -> N) l, (forall i, In i l -> nisnan (k i) = false) ->
  exists out, qrun StdHeap k (map QPush l ++ repeat QPop (length l)) (hempty StdHeap) = Ok ([], out) /\ Permutation l out /\
    forall a b pre mid post, out = pre ++ a :: mid ++ b :: post -> nltb (k b) (k a) = false.
Proof.
  intros N L k l T. destruct (push_all k l []) as [h1 [E1 P1]]. rewrite app_nil_r in P1.
  assert (Hl : length h1 = length l) by (apply Permutation_length in P1; rewrite rev_length in P1; exact P1).
  destruct (pop_all k (length l) h1 Hl) as [h2 [out E2]].
  assert (K1 : keys_ok k (map QPush l)).
  { intros i [Hi|Hi]; apply in_map_iff in Hi; destruct Hi as [x [Ex Hx]]; [injection Ex as ->; apply T, Hx|discriminate]. }
  assert (K2 : keys_ok k (repeat QPop (length l))) by (intros i [Hi|Hi]; apply repeat_spec in Hi; discriminate).
  assert (H1 : heap_ok k h1) by (eapply (proj1 (qrun_ok L k (map QPush l) [] h1 [] K1 (fun x Hx => match Hx with end) ltac:(intros i Hi; cbn in Hi; lia) E1))).
  assert (T1 : total_on k h1) by (intros x Hx; apply T; apply (Permutation_in _ P1) in Hx; apply in_rev; exact Hx).
  destruct (qrun_ok L k _ h1 h2 out K2 T1 H1 E2) as [_ Q].
  destruct (drain_sorted L k (length l) h1 out h2 Q Hl) as [A [B C]]. subst h2.
  exists out. split; [exact (qrun_join StdHeap k _ _ _ _ _ _ _ E1 E2)|]. split; [|exact C].
  rewrite <- A, P1. apply Permutation_rev.
Qed.
Print Assumptions C69_push_all_then_pop_all_sorts.

Example C69_case : qrun (StdHeap (N := F64)) z64 (map QPush [5;3;9;1;7;1] ++ repeat QPop 6) (hempty StdHeap) = Ok ([], [1;1;3;5;7;9]) /\
  (forall i, In i [5;3;9;1;7;1] -> nisnan (z64 i) = false).
Proof. split; [vm_compute; reflexivity|]. intros i K. repeat (destruct K as [<-|K]; [vm_compute; reflexivity|]). destruct K. Qed.

(** ** C68: SFMM *)
Theorem C68_sfmm_terminates_doubles :
  forall dims (g : grid F64) init cfg goal,
  shape_ok dims -> clean_grid dims g -> (forall i, In i init -> 0 <= i < box_size dims) -> heuristic_ready dims cfg ->
  exists k st log, (forall fuel, (k <= fuel)%nat -> fmm_outcome StdHeap cfg goal init g fuel st log) /\
    (helems StdHeap (fs_h st) = [] \/ hd_error log = Some goal).
Proof.
  intros dims g init cfg goal Hs Hc Hr Hh. destruct (run_doubles dims Hs StdHeap StdBag cfg init g goal Hh Hc Hr) as [k [st [log [A [B _]]]]]. eauto 6.
Qed.
Print Assumptions C68_sfmm_terminates_doubles.

Theorem C68_sfmm_terminates_exact :
  forall dims (g : grid XR) init cfg goal,
  shape_ok dims -> clean_grid dims g -> reals_ok g -> (forall i, In i init -> 0 <= i < box_size dims) -> heuristic_ready dims cfg ->
  exists k st log, (forall fuel, (k <= fuel)%nat -> fmm_outcome StdHeap cfg goal init g fuel st log) /\
    (helems StdHeap (fs_h st) = [] \/ hd_error log = Some goal).
Proof.
  intros dims g init cfg goal Hs Hc Hre Hr Hh. destruct (run_exact dims Hs StdHeap StdBag cfg init g goal Hh Hc Hre Hr) as [k [st [log [A [B _]]]]]. eauto 6.
Qed.

Lemma outcome_det {N : Num} (HO : HeapOps N) cfg goal init (g : grid N) k st log fuel st' log' :
  (forall f, (k <= f)%nat -> fmm_outcome HO cfg goal init g f st log) -> fmm_outcome HO cfg goal init g fuel st' log' -> st' = st /\ log' = log.
Proof.
  intros H1 H2. assert (E : fmm_outcome HO cfg goal init g (Nat.max k fuel) st' log') by (eapply fmm_fuel; [|exact H2]; lia).
  specialize (H1 (Nat.max k fuel) ltac:(lia)). unfold fmm_outcome in *. split; congruence.
Qed.

Lemma no_goal_empty {N : Num} (HO : HeapOps N) dims cfg init (g : grid N) st log : shape_ok dims ->
  run_ok HO dims cfg init g noGoal st log -> helems HO (fs_h st) = [].
Proof.
  intros [H2 Hlt] [[E|E] [_ [R _]]]; [exact E|]. destruct log as [|x log]; [discriminate|]. cbn in E. injection E as ->.
  destruct (R noGoal) as [K _]; [left; left; reflexivity|]. pose proof (box_size_pos _ (dims2_proper' _ H2)). unfold noGoal in K. lia.
Qed.

Theorem C68_sfmm_accepts_the_connected_cells :
  forall dims (g : grid F64) init cfg fuel st log i,
  shape_ok dims -> clean_grid dims g -> (forall i, In i init -> 0 <= i < box_size dims) -> heuristic_ready dims cfg ->
  fmm_outcome StdHeap cfg noGoal init g fuel st log ->
  ((exists c, getCell (fs_g st) i = Ok c /\ c_state c = FROZEN) <-> reachable dims (fun k => In k init) (free g) i) /\
  (In i log <-> reachable dims (fun k => In k init) (free g) i).
Proof.
  intros dims g init cfg fuel st log i Hs Hc Hr Hh Hrun.
  destruct (run_doubles dims Hs StdHeap StdBag cfg init g noGoal Hh Hc Hr) as [k [st1 [log1 [A B]]]].
  destruct (outcome_det _ _ _ _ _ _ _ _ _ _ _ A Hrun) as [-> ->]. pose proof (no_goal_empty _ _ _ _ _ _ _ Hs B) as E.
  destruct B as [_ [B1 [_ [B2 _]]]]. specialize (B2 E i). split; [rewrite <- B1; exact B2|exact B2].
Qed.
Print Assumptions C68_sfmm_accepts_the_connected_cells.

(** ** C15/C17 additions: any narrow band that keeps its content ([BagLaws]; [DaryBag],
    [RefBag] and [StdBag] are instances), any initial points (adjacent, repeated or obstacle),
    any heuristic, any velocities *)
Theorem C15_fmm_terminates_doubles_any_sources :
  forall (HO : HeapOps F64) (BL : BagLaws HO) dims (g : grid F64) init cfg goal,
  shape_ok dims -> clean_grid dims g -> (forall i, In i init -> 0 <= i < box_size dims) -> heuristic_ready dims cfg ->
  exists k st log, (forall fuel, (k <= fuel)%nat -> fmm_outcome HO cfg goal init g fuel st log) /\
    (helems HO (fs_h st) = [] \/ hd_error log = Some goal).
Proof.
  intros HO BL dims g init cfg goal Hs Hc Hr Hh. destruct (run_doubles dims Hs HO BL cfg init g goal Hh Hc Hr) as [k [st [log [A [B _]]]]]. eauto 6.
Qed.
Print Assumptions C15_fmm_terminates_doubles_any_sources.

Theorem C15_fmm_terminates_exact_any_sources :
  forall (HO : HeapOps XR) (BL : BagLaws HO) dims (g : grid XR) init cfg goal,
  shape_ok dims -> clean_grid dims g -> reals_ok g -> (forall i, In i init -> 0 <= i < box_size dims) -> heuristic_ready dims cfg ->
  exists k st log, (forall fuel, (k <= fuel)%nat -> fmm_outcome HO cfg goal init g fuel st log) /\
    (helems HO (fs_h st) = [] \/ hd_error log = Some goal).
Proof.
  intros HO BL dims g init cfg goal Hs Hc Hre Hr Hh. destruct (run_exact dims Hs HO BL cfg init g goal Hh Hc Hre Hr) as [k [st [log [A [B _]]]]]. eauto 6.
Qed.

Theorem C17_doubles_accept_exactly_the_connected_cells :
  forall (HO : HeapOps F64) (BL : BagLaws HO) dims (g : grid F64) init cfg fuel st log i,
  shape_ok dims -> clean_grid dims g -> (forall i, In i init -> 0 <= i < box_size dims) -> heuristic_ready dims cfg ->
  fmm_outcome HO cfg noGoal init g fuel st log ->
  ((exists c, getCell (fs_g st) i = Ok c /\ c_state c = FROZEN) <-> reachable dims (fun k => In k init) (free g) i) /\
  (In i log <-> reachable dims (fun k => In k init) (free g) i).
Proof.
  intros HO BL dims g init cfg fuel st log i Hs Hc Hr Hh Hrun.
  destruct (run_doubles dims Hs HO BL cfg init g noGoal Hh Hc Hr) as [k [st1 [log1 [A B]]]].
  destruct (outcome_det _ _ _ _ _ _ _ _ _ _ _ A Hrun) as [-> ->]. pose proof (no_goal_empty _ _ _ _ _ _ _ Hs B) as E.
  destruct B as [_ [B1 [_ [B2 _]]]]. specialize (B2 E i). split; [rewrite <- B1; exact B2|exact B2].
Qed.
Print Assumptions C17_doubles_accept_exactly_the_connected_cells.

(** ** C67: heuristic values FMM* / SFMM* leave in the map *)
Theorem C67_heuristic_values_doubles :
  forall (HO : HeapOps F64) (BL : BagLaws HO) dims (g : grid F64) init cfg goal fuel st log i c,
  shape_ok dims -> clean_grid dims g -> (forall i, In i init -> 0 <= i < box_size dims) -> heuristic_ready dims cfg ->
  fmm_outcome HO cfg goal init g fuel st log ->
  In i log \/ In i (helems HO (fs_h st)) -> getCell (fs_g st) i = Ok c -> heuristic_value dims cfg g i (c_h c).
Proof.
  intros HO BL dims g init cfg goal fuel st log i c Hs Hc Hr Hh Hrun.
  destruct (run_doubles dims Hs HO BL cfg init g goal Hh Hc Hr) as [k [st1 [log1 [A B]]]].
  destruct (outcome_det _ _ _ _ _ _ _ _ _ _ _ A Hrun) as [-> ->]. apply B.
Qed.
Print Assumptions C67_heuristic_values_doubles.

(** in exact arithmetic, spelled out: Euclidean cell distance to the goal, divided by the
    velocity of the cell for the TIME strategy *)
Theorem C67_heuristic_values_exact :
  forall (HO : HeapOps XR) (BL : BagLaws HO) dims (g : grid XR) init s dist goalc goal fuel st log cs c v,
  (2 <= length dims)%nat -> shape_ok dims -> Forall (fun k => k <= 65536) dims -> clean_grid dims g -> reals_ok g ->
  (forall i, In i init -> 0 <= i < box_size dims) -> in_box dims goalc -> in_box dims cs ->
  precomputeDistances (N := XR) (mk_shape dims) = Ok dist ->
  fmm_outcome HO (mkCfg s dist goalc) goal init g fuel st log ->
  In (cell_number dims cs) log \/ In (cell_number dims cs) (helems HO (fs_h st)) ->
  getCell (fs_g st) (cell_number dims cs) = Ok c -> c_occ c = XFin v -> (v <> 0)%R ->
  c_h c = XFin (match s with NOHEUR => 0 | TIME => euclid cs goalc / v | DISTANCE => euclid cs goalc end).
Proof.
  intros HO BL dims g init s dist gc goal fuel st log cs c v Hl Hs Hk Hc Hre Hr Hg Hcs Hd Hrun Hi Hcell Hv Hv0.
  pose proof Hs as [H2 Hlt]. assert (Hp : proper dims) by (apply dims2_proper'; exact H2). pose proof (box_size_pos _ Hp) as Hb.
  assert (Hlt' : box_size dims < 4294967296) by lia.
  destruct (C24_lookups_succeed XR dims gc s Hl Hp Hlt' Hk Hg) as [dist' [Hd' Hh]]. rewrite Hd in Hd'. injection Hd' as <-.
  destruct (run_exact dims Hs HO BL (mkCfg s dist gc) init g goal Hh Hc Hre Hr) as [k [st1 [log1 [A B]]]].
  destruct (outcome_det _ _ _ _ _ _ _ _ _ _ _ A Hrun) as [-> ->].
  assert (K : heuristic_value dims (mkCfg s dist gc) g (cell_number dims cs) (c_h c)) by (apply B; assumption).
  pose proof (C24_distance_is_euclidean dims gc s dist cs _ Hl Hp Hlt' Hk Hg Hcs eq_refl Hd) as Ed.
  unfold heuristic_value in K. cbn [fc_strat] in K. destruct s.
  - exact K.
  - destruct K as [d [c0 [K1 [K2 K3]]]]. rewrite Ed in K1. inversion K1; subst d.
    assert (Eo : c_occ c0 = XFin v).
    { pose proof (fmm_run_frame (fun _ => True) HO _ _ _ _ _ _ _ _ (fun _ _ => Logic.I) Hrun) as F.
      rewrite <- Hv. symmetry. exact (frame_occ_eq _ _ _ _ _ F K2 Hcell). }
    rewrite K3, Eo. change (ndiv (XFin (euclid cs gc) : XR) (XFin v)) with (xdiv (XFin (euclid cs gc)) (XFin v)). cbn.
    unfold Reqb. destruct (Req_EM_T v 0); [contradiction|reflexivity].
  - rewrite Ed in K. inversion K. reflexivity.
Qed.
Print Assumptions C67_heuristic_values_exact.

(** 3x3 map of doubles, cell 4 an obstacle, cell 5 with velocity 2; adjacent sources 0 and 1,
    goal 8: a queued entry is improved, so SFMM's log holds repetitions *)
Definition c68_grid : grid F64 := vgrid [3;3] (n1 : F64) [z64 1; z64 2; half64; z64 1; z64 0; z64 2; z64 1; z64 1; z64 1].
Definition c67_cfg : fmm_cfg (N := F64) :=
  match precomputeDistances (N := F64) (mk_shape [3;3]) with Ok d => mkCfg TIME d [2;2] | Fail _ => no_heur end.

Lemma c67_ready : heuristic_ready [3;3] c67_cfg.
Proof.
  destruct (C24_lookups_succeed F64 [3;3] [2;2] TIME) as [d [E H]].
  - cbn; lia.
  - repeat (constructor; [lia|]); constructor.
  - cbn; lia.
  - repeat (constructor; [lia|]); constructor.
  - repeat (constructor; [lia|]); constructor.
  - unfold c67_cfg. rewrite E. exact H.
Qed.

Example C68_case : shape_ok [3;3] /\ clean_grid [3;3] c68_grid /\ heuristic_ready [3;3] (no_heur (N := F64)) /\
  (exists st log, fmm_outcome (StdHeap (N := F64)) no_heur noGoal [0;1] c68_grid 60 st log /\ (8 <= length log)%nat).
Proof.
  split; [split; [repeat (constructor; [lia|]); constructor|cbn; lia]|]. split; [apply vgrid_clean; reflexivity|]. split; [left; reflexivity|].
  assert (H : match fmm_run (StdHeap (N := F64)) 60 no_heur noGoal [0;1] c68_grid (hempty StdHeap) with
              | Ok (_, log) => (8 <=? Z.of_nat (length log)) | _ => false end = true) by (vm_compute; reflexivity).
  unfold fmm_outcome. destruct (fmm_run (StdHeap (N := F64)) 60 no_heur noGoal [0;1] c68_grid (hempty StdHeap)) as [[st log]|]; [|discriminate].
  exists st, log. split; [reflexivity|]. apply Z.leb_le in H. lia.
Qed.

(** cell 5 = (2,1) is at distance 1 from the goal (2,2): with velocity 2 the stored value is 1/2 *)
Example C67_case : clean_grid [3;3] c68_grid /\ heuristic_ready [3;3] c67_cfg /\ fc_strat c67_cfg = TIME /\
  exists st log c, fmm_outcome (StdHeap (N := F64)) c67_cfg 8 [0;1] c68_grid 60 st log /\ In 5 log /\
    getCell (fs_g st) 5 = Ok c /\ nltb (c_h c) half64 = false /\ nltb half64 (c_h c) = false.
Proof.
  split; [apply vgrid_clean; reflexivity|]. split; [exact c67_ready|]. split; [vm_compute; reflexivity|].
  assert (H : match fmm_run (StdHeap (N := F64)) 60 c67_cfg 8 [0;1] c68_grid (hempty StdHeap) with
              | Ok (st, log) => existsb (Z.eqb 5) log && match getCell (fs_g st) 5 with Ok c => negb (nltb (c_h c) half64) && negb (nltb half64 (c_h c)) | _ => false end
              | _ => false end = true) by (vm_compute; reflexivity).
  unfold fmm_outcome. destruct (fmm_run (StdHeap (N := F64)) 60 c67_cfg 8 [0;1] c68_grid (hempty StdHeap)) as [[st log]|]; [|discriminate].
  apply andb_prop in H. destruct H as [H1 H2]. apply existsb_exists in H1. destruct H1 as [x [Hx E]]. apply Z.eqb_eq in E. subst x.
  destruct (getCell (fs_g st) 5) as [c|] eqn:Ec; [|discriminate]. apply andb_prop in H2. destruct H2 as [H2 H3].
  exists st, log, c. split; [reflexivity|]. split; [exact Hx|]. split; [exact Ec|]. split; apply Bool.negb_true_iff; assumption.
Qed.

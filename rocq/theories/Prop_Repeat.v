(** Prop_Repeat.v - property theorems C88: compute() called again after a complete run (no
    goal, no reset) changes nothing: it only writes the time 0 into the initial points. *)
From Coq Require Import Permutation.
From Verif Require Import Base BaseFacts Num NumXR NumF64 NumLaws NumWf Grid GridFacts GridUpd GridMore Spec Obs Examples Eikonal FMMModel HeapLaws HeapRef BagHeap
  SweepModel QueueModel UntidyModel SweepOrder Frame SolverModel Lifecycle FMMStruct FMMReach NoGoal Term Safe UFMMStruct SFMMStruct DaryModel DaryHeap FibModel FibHeap
  EikR EikX Solution XGrid Prop_FMM Prop_Solver Prop_Sweep Prop_Heap Prop_SFMM Prop_History Prop_Calls.
Open Scope Z_scope.

(** ** the claim *)
(** every cell but the initial points is exactly as before; the initial points have time 0 *)
Definition only_sources {N : Num} (init : list Z) (g g' : grid N) : Prop :=
  (forall i, In i init -> time_is g' i n0) /\ forall i, ~ In i init -> getCell g' i = getCell g i.

(** After a first complete compute() on map [m] (the answer is [g1], and [also] holds of it),
    any positive number of further calls of compute() returns (each with a loop bound of at
    least [k]) and gives [g1] again. *)
Definition repeatable {N : Num} (A : api N) (clr : a_obj A -> a_obj A) (also : list Z -> grid N -> Prop) : Prop :=
  forall m init fuel o g o1 g1, good_map m -> points_in m init (-1) ->
  a_env A (a_new A) (Some m) = Ok (o, g) -> a_comp A fuel (a_pts A o init (-1)) g = Ok (o1, g1) -> also init g1 ->
  exists k, forall f fs, Forall (fun f => (k <= f)%nat) (f :: fs) ->
  exists o2 g2, perform A clr o1 g1 (map Compute (f :: fs)) = Ok (o2, g2) /\ only_sources init g1 g2.

Definition whatever {N : Num} (init : list Z) (g : grid N) : Prop := True.

Section Scheme.
Context {N : Num}.
Lemma only_trans init (g1 g2 g3 : grid N) : only_sources init g1 g2 -> only_sources init g2 g3 -> only_sources init g1 g3.
Proof. intros [A B] [C D]. split; [exact C|]. intros i Hi. rewrite (D i Hi). exact (B i Hi). Qed.

Variable A : api N.
Variable clr : a_obj A -> a_obj A.
Variable also : list Z -> grid N -> Prop.
Variable rest : list Z -> nat -> a_obj A -> grid N -> Prop.
Hypothesis h_first : forall m init fuel o g o1 g1, good_map m -> points_in m init (-1) ->
  a_env A (a_new A) (Some m) = Ok (o, g) -> a_comp A fuel (a_pts A o init (-1)) g = Ok (o1, g1) -> also init g1 -> exists k, rest init k o1 g1.
Hypothesis h_again : forall init k o g f, rest init k o g -> (k <= f)%nat -> exists o2 g2, a_comp A f o g = Ok (o2, g2) /\ only_sources init g g2 /\ rest init k o2 g2.
Lemma repeat_scheme : repeatable A clr also.
Proof.
  intros m init fuel o g o1 g1 Hm Hp He Hc Ha. destruct (h_first m init fuel o g o1 g1 Hm Hp He Hc Ha) as [k Hr]. exists k. clear -Hr h_again.
  intros f fs. revert f o1 g1 Hr. induction fs as [|f2 fs IH]; intros f o1 g1 Hr Hf; inversion Hf as [|x l Hx Hl E]; subst; clear Hf.
  - destruct (h_again init k o1 g1 f Hr Hx) as [o2 [g2 [E1 [E2 _]]]]. exists o2, g2. cbn [map perform exec]. rewrite E1. split; [reflexivity|exact E2].
  - destruct (h_again init k o1 g1 f Hr Hx) as [o2 [g2 [E1 [E2 E3]]]]. destruct (IH f2 o2 g2 E3 Hl) as [o3 [g3 [F1 F2]]]. exists o3, g3.
    change (map Compute (f :: f2 :: fs)) with (Compute f :: map Compute (f2 :: fs) : list (call N)). cbn [perform exec]. rewrite E1. cbn [bind]. split; [exact F1|exact (only_trans _ _ _ _ E2 F2)].
Qed.
End Scheme.

(** ** the neighbours of the initial points *)
Section Around.
Context {N : Num}.
Variable dims : list Z.
Hypothesis Hd2 : dims2 dims.
Hypothesis Hlt : 2 * box_size dims <= 4294967296.
Notation GO := (grid_ok dims).

Lemma fold_marks {X S} (P : S -> Prop) (Q : X -> S -> Prop) (f : S -> X -> res S) l s s' : P s ->
  (forall s x s1, In x l -> P s -> f s x = Ok s1 -> P s1 /\ Q x s1 /\ forall y, Q y s -> Q y s1) -> foldM f l s = Ok s' ->
  P s' /\ (forall x, In x l -> Q x s') /\ forall y, Q y s -> Q y s'.
Proof.
  revert s. induction l as [|x l IH]; intros s HP Hst H; cbn [foldM] in H.
  - inversion H; subst. split; [exact HP|]. split; [intros x []|auto].
  - apply bind_ok in H. destruct H as [s1 [H1 H]]. destruct (Hst s x s1 (or_introl eq_refl) HP H1) as [P1 [Q1 M1]].
    destruct (IH s1 P1 (fun s x s1 Hx => Hst s x s1 (or_intror Hx)) H) as [P2 [Q2 M2]]. split; [exact P2|]. split; [|auto]. intros y [<-|Hy]; auto.
Qed.

(** a property of cell [j] *)
Definition at_cell (p : cell N -> bool) (j : Z) (g : grid N) : Prop := forall c, getCell g j = Ok c -> p c = true.
Lemma at_upd p j g i f g' : (forall c, p c = true -> p (f c) = true) -> updCell g i f = Ok g' -> at_cell p j g -> at_cell p j g'.
Proof.
  intros Hf H K c Hc. rewrite (updCell_get _ _ _ _ j H) in Hc. destruct (i =? j); [|exact (K c Hc)].
  destruct (getCell g j) as [c0|] eqn:E; [|discriminate]. cbn in Hc. inversion Hc; subst. apply Hf, K. exact E.
Qed.
Lemma at_set p g i f g' : (forall c, p (f c) = true) -> updCell g i f = Ok g' -> at_cell p i g'.
Proof.
  intros Hf H c Hc. rewrite (updCell_get _ _ _ _ i H), Z.eqb_refl in Hc. destruct (getCell g i) as [c0|]; [|discriminate]. cbn in Hc. inversion Hc; subst. apply Hf.
Qed.

Definition around (p : cell N -> bool) (init : list Z) (g : grid N) : Prop := forall i j, In i init -> adjacent dims i j -> at_cell p j g.

(** a pass over the initial points that sets time and state and skips all neighbours *)
Lemma seed_total {S} (gof : S -> grid N) (mk : S -> grid N -> S) (step : S -> Z -> res S) (p : cell N -> bool) init :
  (forall s g, gof (mk s g) = g) ->
  (forall s g g', mk (mk s g) g' = mk s g') -> (forall s, mk s (gof s) = s) ->
  (forall c, p c = true -> p (with_state (with_val c n0) FROZEN) = true) ->
  (forall s i g1 g2, In i init -> setArrivalTime (gof s) i n0 = Ok g1 -> setState g1 i FROZEN = Ok g2 -> GO g2 ->
     (forall j, adjacent dims i j -> at_cell p j g2) -> step s i = Ok (mk s g2)) ->
  (forall i, In i init -> 0 <= i < box_size dims) ->
  forall s, GO (gof s) -> around p init (gof s) ->
  exists g', foldM step init s = Ok (mk s g') /\ GO g' /\ around p init g' /\ only_sources init (gof s) g'.
Proof.
  intros Hm1 Hm2 Hm3 Hp Hst Hr s HG HA.
  assert (K : forall l s, (forall i, In i l -> In i init) -> GO (gof s) -> around p init (gof s) ->
     exists g', foldM step l s = Ok (mk s g') /\ GO g' /\ around p init g' /\ (forall i, In i l -> time_is g' i n0) /\
       (forall i, time_is (gof s) i n0 -> time_is g' i n0) /\ forall i, ~ In i init -> getCell g' i = getCell (gof s) i).
  { clear s HG HA. induction l as [|i l IH]; intros s Hl HG HA.
    - exists (gof s). cbn [foldM]. rewrite Hm3. split; [reflexivity|]. split; [exact HG|]. split; [exact HA|]. split; [intros i []|]. split; auto.
    - assert (Hi : In i init) by (apply Hl; left; reflexivity).
      destruct (getCell_in dims (gof s) i HG (Hr i Hi)) as [c Hc].
      destruct (updCell_in (gof s) i c (fun c => with_val c n0) Hc) as [g1 H1]. change (setArrivalTime (gof s) i n0 = Ok g1) in H1.
      pose proof (updCell_grid_ok _ _ _ _ _ H1 HG) as G1. destruct (getCell_in dims g1 i G1 (Hr i Hi)) as [c1 Hc1].
      destruct (updCell_in g1 i c1 (fun c => with_state c FROZEN) Hc1) as [g2 H2]. change (setState g1 i FROZEN = Ok g2) in H2.
      pose proof (updCell_grid_ok _ _ _ _ _ H2 G1) as G2.
      assert (A2 : around p init g2).
      { intros a b Ha Hab. intros cb Hcb. rewrite (updCell_get _ _ _ _ b H2), (updCell_get _ _ _ _ b H1) in Hcb.
        destruct (Z.eqb_spec i b) as [->|Hne].
        - rewrite Hc in Hcb. cbn in Hcb. inversion Hcb; subst. apply Hp. exact (HA a b Ha Hab c Hc).
        - exact (HA a b Ha Hab cb Hcb). }
      cbn [foldM]. rewrite (Hst s i g1 g2 Hi H1 H2 G2 (fun j => A2 i j Hi)). cbn [bind].
      destruct (IH (mk s g2)) as [g' [E [G' [A' [T1 [T2 O]]]]]]; [intros x Hx; apply Hl; right; exact Hx|rewrite Hm1; exact G2|rewrite Hm1; exact A2|].
      rewrite Hm1 in T2, O. rewrite Hm2 in E. exists g'. split; [exact E|]. split; [exact G'|]. split; [exact A'|]. split; [|split].
      + intros x [<-|Hx]; [|exact (T1 x Hx)]. apply T2. unfold time_is, getArrivalTime. rewrite (updCell_get _ _ _ _ i H2), (updCell_get _ _ _ _ i H1), Z.eqb_refl, Hc. reflexivity.
      + intros x Hx. apply T2. unfold time_is, getArrivalTime in *. rewrite (updCell_get _ _ _ _ x H2), (updCell_get _ _ _ _ x H1).
        destruct (Z.eqb_spec i x) as [->|Hne]; [|exact Hx]. rewrite Hc. reflexivity.
      + intros x Hx. rewrite (O x Hx), (updCell_get _ _ _ _ x H2), (updCell_get _ _ _ _ x H1). destruct (Z.eqb_spec i x) as [->|Hne]; [contradiction|reflexivity]. }
  destruct (K init s (fun i H => H) HG HA) as [g' [E [G' [A' [T1 [_ O]]]]]]. exists g'. split; [exact E|]. split; [exact G'|]. split; [exact A'|]. split; [exact T1|exact O].
Qed.
End Around.

(** what the first compute() starts with *)
Lemma first_setup {N : Num} (m : grid N) init : good_map m -> points_in m init (-1) ->
  exists dims, shape_ok dims /\ grid_ok dims (setClean (clean m) false) /\ clean_grid dims (setClean (clean m) false) /\ (forall x, In x init -> 0 <= x < box_size dims) /\
  forall r, solver_setup (mkSolver GSet false init (Some (u32 (-1)))) (clean m) = Ok r -> r = (mkSolver GSet true init (Some noGoal), setClean (clean m) false).
Proof.
  intros Hm Hp. destruct (setup_good m init (-1) Hm Hp) as [dims [Hs [Hg [_ [Hi [_ K]]]]]]. exists dims. split; [exact Hs|]. split; [exact Hg|]. split.
  - split; [exact Hg|]. intros i c Hc. destruct Hm as [Hf _]. destruct (clean_default m Hf i c Hc) as [A [B [_ D]]]. auto.
  - split; [exact Hi|]. intros r Hr. destruct K as [K|K]; rewrite K in Hr; [discriminate|]. inversion Hr; subst. reflexivity.
Qed.
Lemma ok_small {N : Num} dims (g : grid N) : shape_ok dims -> grid_ok dims g -> small g.
Proof. intros [_ Hlt] [_ H]. unfold small. rewrite H. pose proof (Zle_0_nat (length (g_cells g))). lia. Qed.

Section Inst.
Context {N : Num}.

(** ** FIM *)
Definition seen (c : cell N) : bool := isOccupied c || negb (fmstate_eqb (c_state c) OPEN).
Lemma seen_st c s : s <> OPEN -> seen (with_state c s) = true.
Proof. intros Hs. unfold seen. destruct s; [contradiction|apply orb_true_r|apply orb_true_r]. Qed.
Lemma seen_val c (v : N) : seen (with_val c v) = seen c.
Proof. reflexivity. Qed.

Section FIM.
Variable dims : list Z.
Hypothesis Hd2 : dims2 dims.
Hypothesis Hlt : 2 * box_size dims <= 4294967296.
Variable init : list Z.
Hypothesis Hr : forall i, In i init -> 0 <= i < box_size dims.
Notation GO := (grid_ok dims).
Let Hpr : proper dims := dims2_proper' dims Hd2.

Definition mono (g g' : grid N) : Prop := (GO g -> GO g') /\ forall j, at_cell seen j g -> at_cell seen j g'.
Lemma mono_refl g : mono g g. Proof. split; auto. Qed.
Lemma mono_trans a b c : mono a b -> mono b c -> mono a c. Proof. intros [A B] [C D]. split; auto. Qed.
Lemma mono_val g i t g' : setArrivalTime g i t = Ok g' -> mono g g'.
Proof. intros H. split; [intros G; exact (updCell_grid_ok _ _ _ _ _ H G)|]. intros j. eapply at_upd; [|exact H]. auto. Qed.
Lemma mono_st g i s g' : s <> OPEN -> setState g i s = Ok g' -> mono g g'.
Proof. intros Hs H. split; [intros G; exact (updCell_grid_ok _ _ _ _ _ H G)|]. intros j. eapply at_upd; [|exact H]. intros c _; apply seen_st, Hs. Qed.
Lemma mono_fold {X S} (gof : S -> grid N) (f : S -> X -> res S) l s s' : (forall s x s', f s x = Ok s' -> mono (gof s) (gof s')) -> foldM f l s = Ok s' -> mono (gof s) (gof s').
Proof.
  intros Hf H. refine (foldM_inv_partial (fun s1 => mono (gof s) (gof s1)) _ _ _ _ _ _ H); [apply mono_refl|]. intros s1 x s2 _ A B. exact (mono_trans _ _ _ A (Hf _ _ _ B)).
Qed.

Lemma fim_neighbor_mono s j s' : fim_neighbor s j = Ok s' -> mono (fst s) (fst s').
Proof.
  destruct s as [g ins]. unfold fim_neighbor. intros H. invb. destruct (_ && _); invb; [|apply mono_refl]. destruct (isTimeBetterThan _ _); invb; [|apply mono_refl].
  cbn [fst]. eapply mono_trans; [eapply mono_val; eassumption|eapply mono_st; [|eassumption]; discriminate].
Qed.
Lemma fim_pass_mono E goal after : forall g before stop ub r, fim_pass E goal g before after stop ub = Ok r -> mono g (fst (fst (fst r))).
Proof.
  induction after as [|x l IH]; intros g before stop ub r H; cbn [fim_pass] in H; [inversion H; subst; apply mono_refl|].
  apply bind_ok in H. destruct H as [p [Hp H]]. apply bind_ok in H. destruct H as [q [Hq H]]. apply bind_ok in H. destruct H as [g1 [H1 H]].
  apply mono_val in H1. eapply mono_trans; [exact H1|]. destruct (nleb _ _); [|exact (IH _ _ _ _ _ H)].
  apply bind_ok in H. destruct H as [ns [Hns H]]. apply bind_ok in H. destruct H as [[g2 ins] [H2 H]]. apply bind_ok in H. destruct H as [g3 [H3 H]].
  apply (mono_fold fst) in H2; [|intros; eapply fim_neighbor_mono; eassumption]. cbn [fst] in H2.
  eapply mono_trans; [exact H2|]. eapply mono_trans; [eapply mono_st; [|exact H3]; discriminate|]. exact (IH _ _ _ _ _ H).
Qed.
Lemma fim_loop_mono E goal : forall fuel g l stop ub r, fim_loop fuel E goal g l stop ub = Ok r -> mono g (fst (fst r)).
Proof.
  induction fuel as [|k IH]; intros g l stop ub r H; cbn [fim_loop] in H; destruct stop; try (inversion H; subst; apply mono_refl);
    (destruct l as [|x l]; [inversion H; subst; apply mono_refl|]); [discriminate|].
  apply bind_ok in H. destruct H as [[[[g' l'] st'] ub'] [H1 H]]. apply fim_pass_mono in H1. exact (mono_trans _ _ _ H1 (IH _ _ _ _ _ H)).
Qed.
Lemma fim_init1_marks s i s' : In i init -> GO (fi_g s) -> fim_init1 s i = Ok s' -> GO (fi_g s') /\ (forall j, adjacent dims i j -> at_cell seen j (fi_g s')) /\ mono (fi_g s) (fi_g s').
Proof.
  intros Hi HG H. unfold fim_init1 in H. apply bind_ok in H. destruct H as [g1 [H1 H]]. apply bind_ok in H. destruct H as [g2 [H2 H]].
  pose proof (mono_val _ _ _ _ H1) as M1. pose proof (mono_st _ _ FROZEN _ ltac:(discriminate) H2) as M2. pose proof (mono_trans _ _ _ M1 M2) as M.
  assert (G2 : GO g2) by (apply M, HG). rewrite (proj1 G2), getNeighbors_eq in H by auto. cbn [bind] in H.
  edestruct (fold_marks (fun s => GO (fi_g s) /\ mono g2 (fi_g s)) (fun j s => at_cell seen j (fi_g s))) as [[G3 M3] [Q3 _]]; [| |exact H|].
  - cbn [fi_g]. split; [exact G2|apply mono_refl].
  - intros s1 j s2 _ [Ga Ma] Hst. apply bind_ok in Hst. destruct Hst as [c [Hc Hst]]. destruct (_ && _) eqn:Ec.
    + apply bind_ok in Hst. destruct Hst as [g' [Hg' Hst]]. inversion Hst; subst; clear Hst. cbn [fi_g]. pose proof (mono_st _ _ NARROW _ ltac:(discriminate) Hg') as Mb.
      split; [split; [apply Mb, Ga|exact (mono_trans _ _ _ Ma Mb)]|]. split; [|apply Mb]. eapply at_set; [|exact Hg']. intros c0. apply seen_st. discriminate.
    + inversion Hst; subst; clear Hst. split; [auto|]. split; [|auto]. intros c0 Hc0. assert (c0 = c) by congruence. subst c0. unfold seen.
      destruct (fmstate_eqb (c_state c) OPEN), (isOccupied c); cbn in *; congruence.
  - split; [exact G3|]. split; [|exact (mono_trans _ _ _ M M3)]. intros j Hj. apply Q3, nbrs_spec; auto.
Qed.
Lemma fim_run_marks fuel E goal l0 g r : GO g -> fim_resume fuel E goal init l0 g = Ok r -> GO (fst (fst r)) /\ around dims seen init (fst (fst r)).
Proof.
  intros HG H. unfold fim_resume in H. apply bind_ok in H. destruct H as [s [H0 H]]. apply fim_loop_mono in H.
  edestruct (fold_marks (fun s => GO (fi_g s)) (fun i s => forall j, adjacent dims i j -> at_cell seen j (fi_g s))) as [G1 [Q1 _]]; [| |exact H0|].
  - exact HG.
  - intros s1 i s2 Hi G Hst. destruct (fim_init1_marks _ _ _ Hi G Hst) as [A [B C]]. split; [exact A|]. split; [exact B|]. intros y Hy j Hj. apply C, Hy, Hj.
  - split; [apply H, G1|]. intros i j Hi Hj. exact (proj2 H _ (Q1 i Hi j Hj)).
Qed.

Lemma fim_again fuel E g : GO g -> around dims seen init g ->
  exists g', fim_resume fuel E noGoal init [] g = Ok (g', [], false) /\ GO g' /\ around dims seen init g' /\ only_sources init g g'.
Proof.
  intros HG HA.
  destruct (seed_total dims fi_g (fun s g => mkFim g (fi_l s)) fim_init1 seen init) with (s := mkFim g ([] : list Z)) as [g' [E' [G' [A' O]]]]; auto.
  - intros [a b]. reflexivity.
  - intros c _. apply seen_st. discriminate.
  - intros s i g1 g2 Hi H1 H2 G2 Hn. unfold fim_init1. rewrite H1. cbn [bind]. rewrite H2. cbn [bind]. rewrite (proj1 G2), getNeighbors_eq by auto. cbn [bind].
    assert (K : forall ns, (forall j, In j ns -> adjacent dims i j) -> foldM (fun (s : fim_state (N := N)) j => c <- getCell (fi_g s) j ;; if fmstate_eqb (c_state c) OPEN && negb (isOccupied c) then g' <- setState (fi_g s) j NARROW ;; Ok (mkFim g' (fi_l s ++ [j])) else Ok s) ns (mkFim g2 (fi_l s)) = Ok (mkFim g2 (fi_l s))).
    { induction ns as [|j ns IH]; intros Hj; cbn [foldM]; [reflexivity|]. pose proof (Hj j (or_introl eq_refl)) as Haj.
      destruct (getCell_in dims g2 j G2 (proj2 (adjacent_range _ _ _ Haj))) as [c Hc]. cbn [fi_g]. rewrite Hc. cbn [bind]. pose proof (Hn j Haj c Hc) as Hs. unfold seen in Hs.
      replace (fmstate_eqb (c_state c) OPEN && negb (isOccupied c)) with false by (destruct (fmstate_eqb (c_state c) OPEN), (isOccupied c); cbn in *; congruence).
      cbn [bind]. apply IH. intros x Hx. apply Hj. right; exact Hx. }
    apply K. intros j Hj. apply nbrs_spec in Hj; auto.
  - exists g'. split; [|auto]. unfold fim_resume. rewrite E'. cbn [bind fi_g fi_l]. destruct fuel; reflexivity.
Qed.
End FIM.

Theorem C88_fim : forall E : N, repeatable (fim_api E) fim_clear whatever.
Proof.
  intros E. apply (repeat_scheme (fim_api E) fim_clear whatever
    (fun init k o g => exists dims, shape_ok dims /\ grid_ok dims g /\ (forall i, In i init -> 0 <= i < box_size dims) /\ around dims seen init g /\ o = mkFimObj (mkSolver GSet true init (Some noGoal)) [] E)).
  - intros m init fuel o g o1 g1 Hm Hp He Hc _. exists 0%nat. cbn in He. inversion He; subst; clear He.
    destruct (first_setup m init Hm Hp) as [dims [Hs [Hg [_ [Hi Hset]]]]]. exists dims. split; [exact Hs|].
    cbn in Hc. unfold fim_compute in Hc. apply bind_ok in Hc. destruct Hc as [[s1 ga] [H1 Hc]]. apply Hset in H1. inversion H1; subst; clear H1. cbn [goal_of sv_goal sv_init bind io_list io_E fim_setPoints fim_new] in Hc.
    apply bind_ok in Hc. destruct Hc as [[[g2 l] ub] [Hrun Hc]]. inversion Hc; subst; clear Hc. pose proof Hs as [H2 Hlt].
    destruct (fim_run_marks dims H2 Hlt init Hi _ _ _ _ _ _ Hg Hrun) as [G A]. cbn [fst] in *. split; [exact G|]. split; [exact Hi|]. split; [exact A|].
    rewrite (fim_run_no_goal _ _ _ _ _ _ _ (ok_small dims _ Hs Hg) Hrun). reflexivity.
  - intros init k o g f [dims [Hs [Hg [Hi [A ->]]]]] _. cbn [a_comp fim_api]. unfold fim_compute, ensure_setup. cbn [io_s sv_setup bind goal_of sv_goal sv_init io_list io_E]. pose proof Hs as [H2 Hlt].
    destruct (fim_again dims H2 Hlt init Hi f E g Hg A) as [g' [E' [G' [A' O]]]]. rewrite E'. cbn [bind]. do 2 eexists. split; [reflexivity|]. split; [exact O|]. exists dims. auto 6.
Qed.

(** ** GMM *)
Definition shut (c : cell N) : bool := fmstate_eqb (c_state c) FROZEN || isOccupied c.

Section GMM.
Variable dims : list Z.
Hypothesis Hd2 : dims2 dims.
Hypothesis Hlt : 2 * box_size dims <= 4294967296.
Variable init : list Z.
Hypothesis Hr : forall i, In i init -> 0 <= i < box_size dims.
Notation GO := (grid_ok dims).
Let Hpr : proper dims := dims2_proper' dims Hd2.

Definition keep (g g' : grid N) : Prop := (GO g -> GO g') /\ forall j, at_cell shut j g -> at_cell shut j g'.
Lemma keep_refl g : keep g g. Proof. split; auto. Qed.
Lemma keep_trans a b c : keep a b -> keep b c -> keep a c. Proof. intros [A B] [C D]. split; auto. Qed.
Lemma keep_val g i t g' : setArrivalTime g i t = Ok g' -> keep g g'.
Proof. intros H. split; [intros G; exact (updCell_grid_ok _ _ _ _ _ H G)|]. intros j. eapply at_upd; [|exact H]. auto. Qed.
Lemma keep_frozen g i g' : setState g i FROZEN = Ok g' -> keep g g'.
Proof. intros H. split; [intros G; exact (updCell_grid_ok _ _ _ _ _ H G)|]. intros j. eapply at_upd; [|exact H]. reflexivity. Qed.
Lemma keep_narrow g i c g' : getCell g i = Ok c -> shut c = false -> setState g i NARROW = Ok g' -> keep g g'.
Proof.
  intros Hc Hs H. split; [intros G; exact (updCell_grid_ok _ _ _ _ _ H G)|]. intros j K c1 Hc1. rewrite (updCell_get _ _ _ _ j H) in Hc1.
  destruct (Z.eqb_spec i j) as [->|Hne]; [|exact (K c1 Hc1)]. specialize (K c Hc). congruence.
Qed.
Lemma keep_fold {X S} (gof : S -> grid N) (f : S -> X -> res S) l s s' : (forall s x s', f s x = Ok s' -> keep (gof s) (gof s')) -> foldM f l s = Ok s' -> keep (gof s) (gof s').
Proof.
  intros Hf H. refine (foldM_inv_partial (fun s1 => keep (gof s) (gof s1)) _ _ _ _ _ _ H); [apply keep_refl|]. intros s1 x s2 _ A B. exact (keep_trans _ _ _ A (Hf _ _ _ B)).
Qed.

Lemma gmm_first_keep tm g i g' : gmm_first tm g i = Ok g' -> keep g g'.
Proof.
  intros H. unfold gmm_first in H. apply bind_ok in H. destruct H as [ti [_ H]]. destruct (nleb ti tm); [|inversion H; subst; apply keep_refl].
  apply bind_ok in H. destruct H as [ns [_ H]]. refine (keep_fold (fun x => x) _ _ _ _ _ H).
  intros g1 j g2 Hj. invb. destruct (gmm_skip x); invb; [apply keep_refl|]. destruct (nltb x0 (c_val x)); invb; [|apply keep_refl]. eapply keep_val; eassumption.
Qed.
Lemma val_get (g : grid N) i t g' c : setArrivalTime g i t = Ok g' -> getCell g i = Ok c -> getCell g' i = Ok (with_val c t).
Proof. intros H Hc. rewrite (updCell_get _ _ _ _ i H), Z.eqb_refl, Hc. reflexivity. Qed.

Lemma gmm_second_nb_keep s j s' : gmm_second_nb s j = Ok s' -> keep (fst s) (fst s') /\ forall x, In x (snd s) -> In x (snd s').
Proof.
  destruct s as [g p]. unfold gmm_second_nb. intros H. apply bind_ok in H. destruct H as [c [Hc H]]. destruct (gmm_skip c) eqn:Ek; [inversion H; subst; split; [apply keep_refl|auto]|].
  apply bind_ok in H. destruct H as [t [Ht H]]. apply bind_ok in H. destruct H as [g1 [H1 H]].
  assert (K : keep g g1 /\ exists c1, getCell g1 j = Ok c1 /\ shut c1 = shut c).
  { destruct (nltb t (c_val c)); [|inversion H1; subst; split; [apply keep_refl|eauto]]. split; [eapply keep_val; eassumption|]. eexists. split; [eapply val_get; eassumption|reflexivity]. }
  destruct K as [K [c1 [Hc1 Es]]]. destruct (fmstate_eqb (c_state c) OPEN) eqn:Eo.
  - apply bind_ok in H. destruct H as [g2 [H2 H]]. inversion H; subst; clear H. cbn [fst snd]. split; [|intros x Hx; apply in_or_app; auto].
    eapply keep_trans; [exact K|]. eapply keep_narrow; [exact Hc1| |exact H2]. rewrite Es. unfold shut. unfold gmm_skip in Ek. apply orb_false_iff in Ek. apply Ek.
  - inversion H; subst. cbn [fst snd]. auto.
Qed.
Lemma second_nbs ns s s' : foldM gmm_second_nb ns s = Ok s' -> keep (fst s) (fst s') /\ forall x, In x (snd s) -> In x (snd s').
Proof.
  intros H. refine (foldM_inv_partial (fun s1 => keep (fst s) (fst s1) /\ forall x, In x (snd s) -> In x (snd s1)) _ _ _ _ _ _ H); [split; [apply keep_refl|auto]|].
  intros s1 j s2 _ [A B] Hj. apply gmm_second_nb_keep in Hj. destruct Hj as [C D]. split; [exact (keep_trans _ _ _ A C)|auto].
Qed.

(** still to be accepted, or done *)
Definition due (j : Z) (g : grid N) (l : list Z) : Prop := at_cell shut j g \/ In j l.
Lemma gmm_second_due tm goal l : forall g kept pushed stop r, gmm_second tm goal g kept l pushed stop = Ok r ->
  keep g (fst (fst r)) /\ forall j, due j g (kept ++ l ++ pushed) -> due j (fst (fst r)) (snd (fst r)).
Proof.
  induction l as [|i l IH]; intros g kept pushed stop r H; cbn [gmm_second] in H.
  - inversion H; subst. cbn [fst snd]. split; [apply keep_refl|]. intros j [K|K]; [left; exact K|right; exact K].
  - apply bind_ok in H. destruct H as [ti [_ H]]. destruct (nleb ti tm).
    + apply bind_ok in H. destruct H as [ns [_ H]]. apply bind_ok in H. destruct H as [[g1 p1] [H1 H]]. apply bind_ok in H. destruct H as [g2 [H2 H]].
      destruct (second_nbs _ _ _ H1) as [K1 I1]. cbn [fst snd] in *. pose proof (keep_frozen _ _ _ H2) as K2. destruct (IH _ _ _ _ _ H) as [K3 D3].
      split; [exact (keep_trans _ _ _ K1 (keep_trans _ _ _ K2 K3))|]. intros j [K|K].
      * apply D3. left. apply K2, K1, K.
      * apply D3. apply in_app_iff in K. destruct K as [K|K]; [right; apply in_or_app; auto|]. destruct K as [<-|K].
        -- left. eapply at_set; [|exact H2]. reflexivity.
        -- right. apply in_or_app. right. apply in_app_iff in K. apply in_or_app. destruct K as [K|K]; auto.
    + destruct (IH _ _ _ _ _ H) as [K3 D3]. split; [exact K3|]. intros j [K|K]; apply D3; [left; exact K|right]. rewrite <- app_assoc. exact K.
Qed.
Lemma gmm_loop_due dt goal : forall fuel (s s' : gmm_state (N := N)) stop, gmm_loop fuel dt goal s stop = Ok s' ->
  keep (gm_g s) (gm_g s') /\ forall j, due j (gm_g s) (gm_l s) -> due j (gm_g s') (gm_l s').
Proof.
  induction fuel as [|k IH]; intros s s' stop H; cbn [gmm_loop] in H; destruct stop; try (inversion H; subst; split; [apply keep_refl|auto]; fail);
    (destruct (gm_l s) as [|x l] eqn:El; [inversion H; subst; rewrite El; split; [apply keep_refl|auto]|]); [discriminate|].
  rewrite <- El in *. apply bind_ok in H. destruct H as [g1 [H1 H]]. apply bind_ok in H. destruct H as [[[g2 l2] st2] [H2 H]].
  apply (keep_fold (fun x => x)) in H1; [|intros; eapply gmm_first_keep; eassumption]. cbn beta in H1.
  destruct (gmm_second_due _ _ _ _ _ _ _ _ H2) as [K2 D2]. destruct (IH _ _ _ H) as [K3 D3]. cbn [fst snd gm_g gm_l] in *.
  split; [exact (keep_trans _ _ _ H1 (keep_trans _ _ _ K2 K3))|]. intros j K. apply D3, D2. destruct K as [K|K]; [left; apply H1, K|right]. cbn [app]. rewrite app_nil_r. exact K.
Qed.
Lemma gmm_init1_due s i s' : In i init -> GO (gm_g s) -> gmm_init1 s i = Ok s' ->
  GO (gm_g s') /\ (forall j, adjacent dims i j -> due j (gm_g s') (gm_l s')) /\ forall j, due j (gm_g s) (gm_l s) -> due j (gm_g s') (gm_l s').
Proof.
  intros Hi HG H. unfold gmm_init1 in H. apply bind_ok in H. destruct H as [g1 [H1 H]]. apply bind_ok in H. destruct H as [g2 [H2 H]].
  pose proof (keep_val _ _ _ _ H1) as M1. pose proof (keep_frozen _ _ _ H2) as M2. pose proof (keep_trans _ _ _ M1 M2) as M.
  assert (G2 : GO g2) by (apply M, HG). rewrite (proj1 G2), getNeighbors_eq in H by auto. cbn [bind] in H.
  edestruct (fold_marks (fun s => GO (gm_g s)) (fun j s => due j (gm_g s) (gm_l s))) as [G3 [Q3 D3]]; [| |exact H|].
  - exact G2.
  - intros s1 j s2 _ Ga Hst. apply bind_ok in Hst. destruct Hst as [c [Hc Hst]]. destruct (_ || _) eqn:Ec.
    + inversion Hst; subst; clear Hst. split; [exact Ga|]. split; [|auto]. left. intros c0 Hc0. assert (c0 = c) by congruence. subst c0. exact Ec.
    + apply bind_ok in Hst. destruct Hst as [t [_ Hst]]. apply bind_ok in Hst. destruct Hst as [ga [Hga Hst]]. apply bind_ok in Hst. destruct Hst as [gb [Hgb Hst]].
      inversion Hst; subst; clear Hst. cbn [gm_g gm_l].
      assert (K : keep (gm_g s1) gb).
      { eapply keep_trans; [eapply keep_val; exact Hga|]. eapply keep_narrow; [eapply val_get; eassumption| |exact Hgb]. exact Ec. }
      split; [apply K, Ga|]. split; [right; apply in_or_app; right; left; reflexivity|]. intros y [Hy|Hy]; [left; apply K, Hy|right; apply in_or_app; auto].
  - split; [exact G3|]. split; [intros j Hj; apply Q3, nbrs_spec; auto|]. intros j Hj. apply D3. destruct Hj as [Hj|Hj]; [left; apply M, Hj|right; exact Hj].
Qed.
Lemma gmm_run_due fuel dt goal l0 g s' : GO g -> gmm_resume fuel dt goal init l0 g = Ok s' -> GO (gm_g s') /\ forall i j, In i init -> adjacent dims i j -> due j (gm_g s') (gm_l s').
Proof.
  intros HG H. unfold gmm_resume in H. apply bind_ok in H. destruct H as [s [H0 H]]. apply gmm_loop_due in H.
  edestruct (fold_marks (fun s => GO (gm_g s)) (fun i s => forall j, adjacent dims i j -> due j (gm_g s) (gm_l s))) as [G1 [Q1 _]]; [| |exact H0|].
  - exact HG.
  - intros s1 i s2 Hi G Hst. destruct (gmm_init1_due _ _ _ Hi G Hst) as [A [B C]]. split; [exact A|]. split; [exact B|]. intros y Hy j Hj. apply C, Hy, Hj.
  - split; [apply H, G1|]. intros i j Hi Hj. exact (proj2 H _ (Q1 i Hi j Hj)).
Qed.

Lemma gmm_again fuel dt g : GO g -> around dims shut init g ->
  exists g', gmm_resume fuel dt noGoal init [] g = Ok (mkGmm g' [] ninf) /\ GO g' /\ around dims shut init g' /\ only_sources init g g'.
Proof.
  intros HG HA.
  destruct (seed_total dims gm_g (fun s g => mkGmm g (gm_l s) (gm_tm s)) gmm_init1 shut init) with (s := mkGmm g ([] : list Z) ninf) as [g' [E' [G' [A' O]]]]; auto.
  - intros [a b c]. reflexivity.
  - intros s i g1 g2 Hi H1 H2 G2 Hn. unfold gmm_init1. rewrite H1. cbn [bind]. rewrite H2. cbn [bind]. rewrite (proj1 G2), getNeighbors_eq by auto. cbn [bind].
    match goal with |- foldM ?f _ ?s0 = _ => assert (K : forall ns, (forall j, In j ns -> adjacent dims i j) -> foldM f ns s0 = Ok s0) end.
    { induction ns as [|j ns IH]; intros Hj; cbn [foldM]; [reflexivity|]. pose proof (Hj j (or_introl eq_refl)) as Haj.
      destruct (getCell_in dims g2 j G2 (proj2 (adjacent_range _ _ _ Haj))) as [c Hc]. cbn [gm_g]. rewrite Hc. cbn [bind]. pose proof (Hn j Haj c Hc) as Hs. unfold shut in Hs.
      rewrite Hs. cbn [bind]. apply IH. intros x Hx. apply Hj. right; exact Hx. }
    apply K. intros j Hj. apply nbrs_spec in Hj; auto.
  - exists g'. split; [|auto]. unfold gmm_resume. rewrite E'. cbn [bind gm_g gm_l gm_tm]. destruct fuel; reflexivity.
Qed.
End GMM.

Theorem C88_gmm : forall dt : N, repeatable (gmm_api dt) gmm_clear whatever.
Proof.
  intros dt. apply (repeat_scheme (gmm_api dt) gmm_clear whatever
    (fun init k o g => exists dims d, shape_ok dims /\ grid_ok dims g /\ (forall i, In i init -> 0 <= i < box_size dims) /\ around dims shut init g /\ o = mkGmmObj (mkSolver GSet true init (Some noGoal)) d [])).
  - intros m init fuel o g o1 g1 Hm Hp He Hc _. exists 0%nat. cbn in He. inversion He; subst; clear He.
    destruct (first_setup m init Hm Hp) as [dims [Hs [Hg [_ [Hi Hset]]]]]. exists dims, (gmm_setup_dt dt (setClean (clean m) false)). split; [exact Hs|].
    cbn in Hc. unfold gmm_compute in Hc. cbn [go_s gmm_setPoints sv_setup setInitialAndGoalPoints] in Hc. apply bind_ok in Hc. destruct Hc as [[oa ga] [H1 Hc]].
    unfold gmm_setup in H1. apply bind_ok in H1. destruct H1 as [[s1 gb] [H0 H1]]. apply Hset in H0. inversion H0; subst; clear H0. inversion H1; subst; clear H1.
    cbn [goal_of sv_goal sv_init bind go_s go_dt go_gamma gmm_setPoints gmm_new] in Hc.
    apply bind_ok in Hc. destruct Hc as [r [Hrun Hc]]. inversion Hc; subst; clear Hc. pose proof Hs as [H2 Hlt].
    pose proof (gmm_run_no_goal _ _ _ _ _ (ok_small dims _ Hs Hg) Hrun) as El.
    destruct (gmm_run_due dims H2 Hlt init Hi _ _ _ _ _ _ Hg Hrun) as [G A]. split; [exact G|]. split; [exact Hi|]. rewrite El in *. split; [|reflexivity].
    intros i j Hi' Hj. destruct (A i j Hi' Hj) as [K|[]]. exact K.
  - intros init k o g f [dims [d [Hs [Hg [Hi [A ->]]]]]] _. cbn [a_comp gmm_api]. unfold gmm_compute. cbn [go_s sv_setup bind goal_of sv_goal sv_init go_gamma go_dt]. pose proof Hs as [H2 Hlt].
    destruct (gmm_again dims H2 Hlt init Hi f d g Hg A) as [g' [E' [G' [A' O]]]]. rewrite E'. cbn [bind gm_g gm_l]. do 2 eexists. split; [reflexivity|]. split; [exact O|]. exists dims, d. auto 6.
Qed.
End Inst.

(** ** FMM (and FMM* without a goal, SFMM, all narrow bands) *)
Section FMM.
Context {N : Num}.
Variable HO : HeapOps N.
Variable BL : BagLaws HO.
Variable dims : list Z.
Hypothesis Hd2 : dims2 dims.
Hypothesis Hlt : 2 * box_size dims <= 4294967296.
Variable init : list Z.
Hypothesis Hr : forall i, In i init -> 0 <= i < box_size dims.
Notation GO := (grid_ok dims).
Let Hpr : proper dims := dims2_proper' dims Hd2.
Variables (ds : list N) (cs : list Z).
Notation cfg := (mkCfg NOHEUR ds cs).

Lemma fmm_seed : forall l g h, (forall i, In i l -> In i init) -> GO g -> around dims shut init g -> bwf BL h ->
  exists g' h', foldM (fmm_init1 HO cfg) l (mkFst g h) = Ok (mkFst g' h') /\ GO g' /\ around dims shut init g' /\ bwf BL h' /\
    (forall i, In i (helems HO h') <-> In i l \/ In i (helems HO h)) /\ length (helems HO h') = (length l + length (helems HO h))%nat /\
    (forall i, In i l -> time_is g' i n0) /\ (forall i, time_is g i n0 -> time_is g' i n0) /\ forall i, ~ In i init -> getCell g' i = getCell g i.
Proof.
  induction l as [|i l IH]; intros g h Hl HG HA HW.
  - exists g, h. split; [reflexivity|]. split; [exact HG|]. split; [exact HA|]. split; [exact HW|]. split; [intros i; cbn; tauto|]. split; [reflexivity|]. split; [intros i []|]. auto.
  - assert (Hi : In i init) by (apply Hl; left; reflexivity).
    destruct (getCell_in dims g i HG (Hr i Hi)) as [c Hc].
    destruct (updCell_in g i c (fun c => with_val c n0) Hc) as [g1 H1]. change (setArrivalTime g i n0 = Ok g1) in H1.
    pose proof (updCell_grid_ok _ _ _ _ _ H1 HG) as G1.
    assert (A1 : around dims shut init g1). { intros a b Ha Hab. eapply at_upd; [|exact H1|exact (HA a b Ha Hab)]. auto. }
    destruct (bl_push HO BL (key g1) i h HW) as [W1 [P1 _]]. set (h1 := hpush HO (key g1) i h) in *.
    destruct (IH g1 h1 (fun x Hx => Hl x (or_intror Hx)) G1 A1 W1) as [g' [h' [E [G' [A' [W' [I' [L' [T1 [T2 O]]]]]]]]]].
    exists g', h'. cbn [foldM]. unfold fmm_init1 at 1. cbn [fs_g fs_h]. rewrite H1. cbn [bind fmm_heur fc_strat]. fold h1. split; [exact E|].
    split; [exact G'|]. split; [exact A'|]. split; [exact W'|]. split; [|split; [|split; [|split]]].
    + intros x. rewrite I'. cbn [In]. split.
      * intros [K|K]; [tauto|]. apply (Permutation_in _ P1) in K. destruct K as [K|K]; auto.
      * intros [[K|K]|K]; [right|left; exact K|right]; (eapply Permutation_in; [symmetry; exact P1|]); [left; exact K|right; exact K].
    + rewrite L', (Permutation_length P1). cbn [length]. lia.
    + intros x [<-|Hx]; [|exact (T1 x Hx)]. apply T2. unfold time_is, getArrivalTime. rewrite (updCell_get _ _ _ _ i H1), Z.eqb_refl, Hc. reflexivity.
    + intros x Hx. apply T2. unfold time_is, getArrivalTime in *. rewrite (updCell_get _ _ _ _ x H1). destruct (Z.eqb_spec i x) as [->|Hne]; [|exact Hx]. rewrite Hc. reflexivity.
    + intros x Hx. rewrite (O x Hx), (updCell_get _ _ _ _ x H1). destruct (Z.eqb_spec i x) as [->|Hne]; [contradiction|reflexivity].
Qed.

Lemma fmm_drain : forall n fuel g h log, length (helems HO h) = n -> (n < fuel)%nat -> (forall i, In i (helems HO h) -> In i init) ->
  GO g -> around dims shut init g -> bwf BL h ->
  exists g' h' log', fmm_loop HO fuel cfg noGoal (mkFst g h) log = Ok (mkFst g' h', log') /\ GO g' /\ around dims shut init g' /\ bwf BL h' /\ helems HO h' = [] /\
    (forall i, getArrivalTime g' i = getArrivalTime g i) /\ forall i, ~ In i init -> getCell g' i = getCell g i.
Proof.
  induction n as [|n IH]; intros fuel g h log Hn Hf Hin HG HA HW; (destruct fuel as [|fuel]; [lia|]); cbn [fmm_loop]; unfold fmm_step; cbn [fs_g fs_h].
  - assert (E : helems HO h = []) by (destruct (helems HO h); [reflexivity|discriminate]). rewrite (proj2 (bl_pop_none HO BL (key g) h HW) E). cbn [bind].
    exists g, h, log. auto 8.
  - destruct (hpop HO (key g) h) as [[m h1]|] eqn:Ep.
    2:{ apply (bl_pop_none HO BL) in Ep; [|exact HW]. rewrite Ep in Hn. discriminate. }
    destruct (bl_pop HO BL _ _ _ _ HW Ep) as [W1 [P1 _]].
    assert (Hm : In m init) by (apply Hin; eapply Permutation_in; [symmetry; exact P1|left; reflexivity]).
    rewrite (proj1 HG), getNeighbors_eq by auto. cbn [bind].
    destruct (getCell_in dims g m HG (Hr m Hm)) as [c Hc].
    destruct (updCell_in g m c (fun c => with_state c FROZEN) Hc) as [g2 H2]. change (setState g m FROZEN = Ok g2) in H2. rewrite H2. cbn [bind].
    pose proof (updCell_grid_ok _ _ _ _ _ H2 HG) as G2.
    assert (A2 : around dims shut init g2). { intros a b Ha Hab. eapply at_upd; [|exact H2|exact (HA a b Ha Hab)]. reflexivity. }
    assert (K : forall ns, (forall j, In j ns -> adjacent dims m j) -> foldM (fmm_neighbor HO cfg) ns (mkFst g2 h1) = Ok (mkFst g2 h1)).
    { induction ns as [|j ns IHn]; intros Hj; cbn [foldM]; [reflexivity|]. unfold fmm_neighbor at 1. cbn [fs_g]. pose proof (Hj j (or_introl eq_refl)) as Haj.
      destruct (getCell_in dims g2 j G2 (proj2 (adjacent_range _ _ _ Haj))) as [cj Hcj]. rewrite Hcj. cbn [bind]. pose proof (A2 m j Hm Haj cj Hcj) as Hs. unfold shut in Hs. rewrite Hs.
      cbn [bind]. apply IHn. intros x Hx. apply Hj. right; exact Hx. }
    rewrite K by (intros j Hj; apply nbrs_spec in Hj; auto). cbn [bind].
    assert (Hmg : m =? noGoal = false) by (apply Z.eqb_neq; specialize (Hr m Hm); unfold noGoal; lia). rewrite Hmg.
    destruct (IH fuel g2 h1 (m :: log)) as [g' [h' [log' [E [G' [A' [W' [E' [T O]]]]]]]]]; auto.
    + apply Permutation_length in P1. cbn [length] in P1. lia.
    + lia.
    + intros x Hx. apply Hin. eapply Permutation_in; [symmetry; exact P1|right; exact Hx].
    + exists g', h', log'. split; [exact E|]. split; [exact G'|]. split; [exact A'|]. split; [exact W'|]. split; [exact E'|]. split.
      * intros x. rewrite T. eapply upd_keep_time; [|exact H2]. reflexivity.
      * intros x Hx. rewrite (O x Hx), (updCell_get _ _ _ _ x H2). destruct (Z.eqb_spec m x) as [->|Hne]; [contradiction|reflexivity].
Qed.

Lemma fmm_again fuel g h : (length init < fuel)%nat -> GO g -> around dims shut init g -> bwf BL h -> helems HO h = [] ->
  exists g' h' log, fmm_run HO fuel cfg noGoal init g h = Ok (mkFst g' h', log) /\ GO g' /\ around dims shut init g' /\ bwf BL h' /\ helems HO h' = [] /\ only_sources init g g'.
Proof.
  intros Hf HG HA HW HE. destruct (fmm_seed init g h (fun i H => H) HG HA HW) as [g1 [h1 [E1 [G1 [A1 [W1 [I1 [L1 [T1 [_ O1]]]]]]]]]].
  rewrite HE in *. destruct (fmm_drain (length (helems HO h1)) fuel g1 h1 [] eq_refl) as [g2 [h2 [log [E2 [G2 [A2 [W2 [N2 [T2 O2]]]]]]]]]; auto.
  { rewrite L1. cbn. lia. } { intros i Hi. apply I1 in Hi. destruct Hi as [Hi|[]]. exact Hi. }
  exists g2, h2, log. split; [unfold fmm_run; rewrite E1; cbn [bind]; exact E2|]. split; [exact G2|]. split; [exact A2|]. split; [exact W2|]. split; [exact N2|]. split.
  - intros i Hi. unfold time_is. rewrite T2. exact (T1 i Hi).
  - intros i Hi. rewrite (O2 i Hi). exact (O1 i Hi).
Qed.
End FMM.

(** the first run, without a goal: the band ends up empty and every free neighbour of an initial point is accepted *)
Definition completes {N : Num} (HO : HeapOps N) (BL : BagLaws HO) (fine : grid N -> Prop) : Prop :=
  forall dims init (g : grid N) cfg fuel st log, shape_ok dims -> heuristic_ready dims cfg -> clean_grid dims g -> fine g -> (forall i, In i init -> 0 <= i < box_size dims) ->
  fmm_run HO fuel cfg noGoal init g (hempty HO) = Ok (st, log) ->
  grid_ok dims (fs_g st) /\ around dims shut init (fs_g st) /\ bwf BL (fs_h st) /\ helems HO (fs_h st) = [].

Lemma completes_gen {N : Num} (L : NumLaws N) (HO : HeapOps N) (BL : BagLaws HO) (fine : grid N -> Prop) (GI : list Z -> grid N -> Prop) (OKv Good : N -> Prop) :
  (forall dims g, clean_grid dims g -> fine g -> GI dims g) ->
  (forall dims g, GI dims g -> grid_ok dims g) ->
  (forall dims g i s g', GI dims g -> setState g i s = Ok g' -> GI dims g') ->
  (forall dims g i h g', GI dims g -> setHeuristicTime g i h = Ok g' -> GI dims g') ->
  (forall dims g i u g', GI dims g -> OKv u -> setArrivalTime g i u = Ok g' -> GI dims g') -> OKv n0 ->
  (forall dims g i c u, shape_ok dims -> GI dims g -> 0 <= i < box_size dims -> getCell g i = Ok c -> isOccupied c = false -> solveEikonal g i = Ok u -> OKv u) ->
  (forall u x, OKv u -> isTimeBetterThan u x = true -> Good u) ->
  well_founded (fun x y : N => isTimeBetterThan x y = true /\ Good x) ->
  completes HO BL fine.
Proof.
  intros G1 G2 G3 G4 G5 G6 G7 G8 G9 dims init g cfg fuel st log Hs Hh Hc Hfi Hr Hrun. pose proof Hs as [H2 Hlt]. pose proof Hc as [Hg Hcl].
  destruct (bag_run L HO BL dims H2 Hlt cfg init Hh g (GI dims) OKv Good (G2 dims) (G3 dims) (G4 dims) (G5 dims) G6 (fun g i c u => G7 dims g i c u Hs) G8 G9 (G1 dims g Hc Hfi)) with (goal := noGoal) as [k [st2 [log2 [Hk [B [C [S E]]]]]]].
  { intros i c Hi. apply (Hcl i c Hi). } { exact Hr. }
  destruct (outcome_det _ _ _ _ _ _ _ _ _ _ _ Hk Hrun) as [<- <-].
  assert (Ee : helems HO (fs_h st) = []).
  { apply (bl_pop_none HO BL (key (fs_g st))); [apply (bi_wf _ _ _ _ _ _ _ _ _ _ B)|]. exact (fmm_run_no_goal HO _ _ _ _ _ _ _ (ok_small dims g Hs Hg) Hrun). }
  pose proof (BI_grid HO BL dims cfg init g (GI dims) (G2 dims) _ _ _ B) as Hgs.
  split; [exact Hgs|]. split; [|split; [apply (bi_wf _ _ _ _ _ _ _ _ _ _ B)|exact Ee]].
  intros i j Hi Hj c Hcj. unfold shut. destruct (isOccupied c) eqn:Eo; [apply orb_true_r|]. rewrite orb_false_r. apply eqb_state.
  pose proof (bag_done HO BL dims cfg init g (GI dims) (G2 dims) _ _ _ B C S Ee j) as D.
  assert (Hl : In j log).
  { apply D. eapply reach_step; [apply reach_src; exact Hi|exact Hj|]. apply (free_frame g (fs_g st) j (bi_fm _ _ _ _ _ _ _ _ _ _ B)). exists c. auto. }
  apply (bi_fr _ _ _ _ _ _ _ _ _ _ B) in Hl. rewrite (cst_get _ _ _ Hcj) in Hl. congruence.
Qed.

Lemma completes_doubles (HO : HeapOps F64) (BL : BagLaws HO) : completes HO BL (fun _ => True).
Proof.
  apply (completes_gen F64_laws HO BL (fun _ => True) (fun dims => grid_ok dims) (fun _ => True) Good64); try (intros; exact Logic.I); try exact Good64_wf;
    try (intros; eapply updCell_grid_ok; eassumption). { intros dims g [A _] _; exact A. } { auto. }
Qed.

Theorem C88_fmm_doubles : forall (HO : HeapOps F64) (BL : BagLaws HO) (h : HeurStrategy), repeatable (fmm_api HO h) (fmm_clear HO) whatever.
Proof.
  intros HO BL h. apply (repeat_scheme (fmm_api HO h) (fmm_clear HO) whatever
    (fun init k o g => k = S (length init) /\ exists dims band ds pre cs, shape_ok dims /\ grid_ok dims g /\ (forall i, In i init -> 0 <= i < box_size dims) /\ around dims shut init g /\
       bwf BL band /\ helems HO band = [] /\ o = mkFmm (mkSolver GSet true init (Some noGoal)) band NOHEUR ds pre cs)).
  - intros m init fuel o g o1 g1 Hm Hp He Hc _. exists (S (length init)). split; [reflexivity|]. cbn in He. inversion He; subst; clear He.
    destruct (first_setup m init Hm Hp) as [dims [Hs [Hg [Hcl [Hi Hset]]]]]. exists dims.
    cbn [a_comp a_pts fmm_api] in Hc. unfold fmm_compute in Hc. cbn [fmm_setPoints fmm_with_solver fmm_new fo_s fo_band fo_strat fo_dist fo_pre fo_coord setInitialAndGoalPoints sv_setup sv_grid new_solver] in Hc.
    apply bind_ok in Hc. destruct Hc as [[oa ga] [Ha Hc]]. destruct (fmm_setup_cases _ _ _ _ _ Ha) as [s1 [kk [Hs1 [Hk Hcs]]]].
    cbn [fo_s fo_band fo_strat fo_dist fo_pre fo_coord] in *. apply Hset in Hs1. inversion Hs1; subst; clear Hs1. cbn [goal_of sv_goal] in Hk. inversion Hk; subst; clear Hk.
    assert (Eo : oa = mkFmm (mkSolver GSet true init (Some noGoal)) (hempty HO) NOHEUR [] false []).
    { destruct Hcs as [[_ K]|[[_ [_ K]]|[_ [K _]]]]; [exact K|exact K|]. exfalso. apply K. reflexivity. }
    subst oa. cbn [fo_s fo_band fo_strat fo_dist fo_pre fo_coord goal_of sv_goal bind sv_init] in Hc.
    apply bind_ok in Hc. destruct Hc as [[st log] [Hrun Hc]]. inversion Hc; subst; clear Hc.
    destruct (completes_doubles HO BL dims init _ (mkCfg NOHEUR ([] : list F64) []) fuel st log Hs (or_introl eq_refl) Hcl Logic.I Hi Hrun) as [G [A [W E]]].
    exists (fs_h st), [], false, []. split; [exact Hs|]. split; [exact G|]. split; [exact Hi|]. split; [exact A|]. split; [exact W|]. split; [exact E|reflexivity].
  - intros init k o g f [-> [dims [band [ds [pre [cs [Hs [Hg [Hi [A [W [E ->]]]]]]]]]]]] Hf. cbn [a_comp fmm_api]. unfold fmm_compute. cbn [fo_s fo_band fo_strat fo_dist fo_pre fo_coord sv_setup bind goal_of sv_goal sv_init]. pose proof Hs as [H2 Hlt].
    destruct (fmm_again HO BL dims H2 Hlt init Hi ds cs f g band ltac:(lia) Hg A W E) as [g' [h' [log [E' [G' [A' [W' [N' O]]]]]]]]. rewrite E'. cbn [bind fs_g fs_h].
    do 2 eexists. split; [reflexivity|]. split; [exact O|]. split; [reflexivity|]. exists dims, h', ds, pre, cs. auto 9.
Qed.

(** ** FSM *)
Section FSM.
Context {N : Num}.
Variable L : NumLaws N.
Variable dims : list Z.
Hypothesis Hd2 : dims2 dims.
Hypothesis Hlt : 2 * box_size dims <= 4294967296.
Notation GO := (grid_ok dims).
Let Hpr : proper dims := dims2_proper' dims Hd2.

(** no free cell would be improved *)
Definition stable_at (g : grid N) (i : Z) : Prop := forall c t, getCell g i = Ok c -> isOccupied c = false -> solveEikonal g i = Ok t -> isTimeBetterThan t (c_val c) = false.

Lemma sweep_as_fold solve incs (s : sw_state (N := N)) : GO (sw_g s) -> is_dir (length dims) incs -> one_sweep solve incs s = foldM (visit solve) (sweep_order incs dims) s.
Proof. intros [Hsh _] Hd. unfold one_sweep. rewrite Hsh, recIter_flat, sweep_flat; auto. pose proof (box_size_pos _ Hpr). lia. Qed.

Lemma quiet_fold goal l : forall s s' : sw_state (N := N), foldM (visit (fsm_solveForIdx goal)) l s = Ok s' -> sw_keep s' = false -> sw_keep s = false /\ sw_g s' = sw_g s /\ forall x, In x l -> stable_at (sw_g s) x.
Proof.
  induction l as [|x l IH]; intros s s' H Hk; cbn [foldM] in H; [inversion H; subst; split; [exact Hk|split; [reflexivity|intros x []]]|].
  apply bind_ok in H. destruct H as [s1 [H1 H]]. destruct (IH s1 s' H Hk) as [K1 [K2 K3]].
  assert (J : sw_keep s = false /\ sw_g s1 = sw_g s /\ stable_at (sw_g s) x).
  { unfold visit in H1. apply bind_ok in H1. destruct H1 as [c [Hc H1]]. destruct (isOccupied c) eqn:Eo.
    - inversion H1; subst. split; [exact K1|]. split; [reflexivity|]. intros c0 t Hc0 Ho _. congruence.
    - unfold fsm_solveForIdx in H1. apply bind_ok in H1. destruct H1 as [pv [Hp H1]]. apply bind_ok in H1. destruct H1 as [t [Ht H1]].
      destruct (isTimeBetterThan t pv) eqn:Eb; [apply bind_ok in H1; destruct H1 as [g' [_ H1]]; inversion H1; subst; discriminate|].
      assert (Q : stable_at (sw_g s) x).
      { intros c0 t0 Hc0 _ Ht0. assert (c0 = c) by congruence. assert (t0 = t) by congruence. subst. unfold getArrivalTime in Hp. rewrite Hc in Hp. cbn in Hp. inversion Hp; subst. exact Eb. }
      destruct (_ && _); inversion H1; subst; cbn [sw_keep sw_g] in *; auto. }
  destruct J as [J1 [J2 J3]]. split; [exact J1|]. split; [congruence|]. rewrite J2 in K3. intros y [<-|Hy]; auto.
Qed.

Lemma stable_fold l : forall (g : grid N) k b, GO g -> (forall x, In x l -> 0 <= x < box_size dims) -> (forall x, In x l -> stable_at g x) -> foldM (visit (fsm_solveForIdx noGoal)) l (mkSw g k b) = Ok (mkSw g k b).
Proof.
  induction l as [|x l IH]; intros g k b HG Hr Hs; cbn [foldM]; [reflexivity|]. pose proof (Hr x (or_introl eq_refl)) as Hx.
  destruct (getCell_in dims g x HG Hx) as [c Hc]. assert (E : visit (fsm_solveForIdx noGoal) (mkSw g k b) x = Ok (mkSw g k b)).
  { unfold visit. cbn [sw_g]. rewrite Hc. cbn [bind]. destruct (isOccupied c) eqn:Eo; [reflexivity|]. unfold fsm_solveForIdx. cbn [sw_g sw_keep sw_stop].
    destruct (solveEikonal_total L dims g x Hd2 Hlt HG Hx) as [t Ht]. unfold getArrivalTime. rewrite Hc, Ht. cbn [bind].
    rewrite (Hs x (or_introl eq_refl) c t Hc Eo Ht). replace (x =? noGoal) with false by (symmetry; apply Z.eqb_neq; unfold noGoal; lia). rewrite andb_false_r. reflexivity. }
  rewrite E. cbn [bind]. apply IH; auto; intros y Hy; [apply Hr|apply Hs]; right; exact Hy.
Qed.

Lemma fsm_loop_end goal ms : forall fuel sweeps incs s r, is_dir (length dims) incs -> GO (sw_g s) ->
  sweep_loop (fsm_solveForIdx goal) fuel ms sweeps incs s = Ok r -> sw_stop (fst (fst r)) = false -> sw_keep s = true \/ (forall i, 0 <= i < box_size dims -> stable_at (sw_g s) i) ->
  ms <= snd (fst r) \/ forall i, 0 <= i < box_size dims -> stable_at (sw_g (fst (fst r))) i.
Proof.
  induction fuel as [|k IH]; intros sweeps incs s r Hd HG H Hst HK; cbn [sweep_loop] in H; destruct (sw_keep s && negb (sw_stop s) && (sweeps <? ms)) eqn:Ec; [discriminate| | |].
  1,3: inversion H; subst; cbn [fst snd] in *; rewrite Hst in Ec; cbn [negb] in Ec; rewrite andb_true_r in Ec; destruct (sw_keep s); [left; cbn in Ec; apply Z.ltb_ge in Ec; exact Ec|right; destruct HK as [HK|HK]; [discriminate|exact HK]].
  apply bind_ok in H. destruct H as [s1 [H1 H]]. destruct (next_dir _ _ Hd) as [Hd' _].
  rewrite (sweep_as_fold (fsm_solveForIdx goal) (next_incs incs) (mkSw (sw_g s) false (sw_stop s)) HG Hd') in H1.
  assert (G1 : GO (sw_g s1)).
  { refine (foldM_inv_partial (fun s => GO (sw_g s)) _ _ _ _ (HG : GO (sw_g (mkSw (sw_g s) false (sw_stop s)))) _ H1). intros s2 x s3 _ G2 H2. unfold visit in H2. apply bind_ok in H2. destruct H2 as [c [_ H2]]. destruct (isOccupied c); [inversion H2; subst; exact G2|].
    unfold fsm_solveForIdx in H2. apply bind_ok in H2. destruct H2 as [pv [_ H2]]. apply bind_ok in H2. destruct H2 as [t [_ H2]]. destruct (isTimeBetterThan t pv).
    - apply bind_ok in H2. destruct H2 as [g' [Hg' H2]]. inversion H2; subst. exact (updCell_grid_ok _ _ _ _ _ Hg' G2).
    - match type of H2 with (if ?b then _ else _) = _ => destruct b end; inversion H2; subst; exact G2. }
  apply (IH _ _ _ _ Hd' G1 H Hst). destruct (sw_keep s1) eqn:Ek; [left; reflexivity|right]. destruct (quiet_fold _ _ _ _ H1 Ek) as [_ [E2 Q]]. cbn [sw_g] in *. rewrite E2.
  intros i Hi. apply Q. eapply Permutation_in; [symmetry; apply sweep_order_perm; auto|]. apply in_zseq. lia.
Qed.

Lemma set_same (g : grid N) i t : time_is g i t -> setArrivalTime g i t = Ok g.
Proof.
  unfold time_is, getArrivalTime. intros H. destruct (getCell g i) as [c|] eqn:Ec; [|discriminate]. cbn in H. inversion H; subst. apply updCell_ok. exists c. split; [exact Ec|].
  replace (with_val c (c_val c)) with c by (destruct c; reflexivity). apply vget_ok in Ec. destruct Ec as [_ Ec]. rewrite (lset_id _ _ _ Ec). destruct g; reflexivity.
Qed.
Lemma zero_same init (g : grid N) : (forall i, In i init -> time_is g i n0) -> foldM (fun g i => setArrivalTime g i n0) init g = Ok g.
Proof.
  induction init as [|i l IH]; intros H; cbn [foldM]; [reflexivity|]. rewrite (set_same g i n0 (H i (or_introl eq_refl))). cbn [bind]. apply IH. intros x Hx. apply H. right; exact Hx.
Qed.

Lemma fsm_again fuel ms init sweeps incs (g : grid N) : (1 <= fuel)%nat -> GO g -> is_dir (length dims) incs -> (forall i, In i init -> time_is g i n0) ->
  ms <= sweeps \/ (forall i, 0 <= i < box_size dims -> stable_at g i) ->
  exists s n incs', fsm_run fuel ms noGoal init sweeps incs g = Ok (s, n, incs') /\ sw_g s = g /\ is_dir (length dims) incs'.
Proof.
  intros Hf HG Hd Ht HQ. unfold fsm_run. rewrite (zero_same init g Ht). cbn [bind]. destruct fuel as [|f]; [lia|].
  cbn [sweep_loop sw_keep sw_stop negb andb sw_g]. destruct (Z.ltb_spec sweeps ms) as [Hlt1|Hge].
  2:{ do 3 eexists. split; [reflexivity|]. auto. }
  destruct HQ as [HQ|HQ]; [lia|]. destruct (next_dir _ _ Hd) as [Hd' _]. rewrite (sweep_as_fold _ _ (mkSw g false false) HG Hd').
  rewrite stable_fold; [|exact HG| |].
  - cbn [bind]. destruct f; cbn [sweep_loop sw_keep andb]; do 3 eexists; (split; [reflexivity|]); auto.
  - intros x Hx. eapply Permutation_in in Hx; [|apply sweep_order_perm; auto]. apply in_zseq in Hx. pose proof (box_size_pos _ Hpr). lia.
  - intros x Hx. apply HQ. eapply Permutation_in in Hx; [|apply sweep_order_perm; auto]. apply in_zseq in Hx. pose proof (box_size_pos _ Hpr). lia.
Qed.
End FSM.

(** the initial points have time 0 *)
Definition sources_at_zero {N : Num} (init : list Z) (g : grid N) : Prop := forall i, In i init -> time_is g i n0.

Theorem C88_fsm : forall (N : Num) (L : NumLaws N) maxSweeps, repeatable (fsm_api (N := N) maxSweeps) fsm_clear sources_at_zero.
Proof.
  intros N L ms. apply (repeat_scheme (fsm_api ms) fsm_clear sources_at_zero
    (fun init k o g => k = 1%nat /\ sources_at_zero init g /\ exists dims sw incs, shape_ok dims /\ grid_ok dims g /\ is_dir (length dims) incs /\
       (u32 ms <= sw \/ forall i, 0 <= i < box_size dims -> stable_at g i) /\ o = mkFsm (mkSolver GSet true init (Some noGoal)) sw (u32 ms) incs dims)).
  - intros m init fuel o g o1 g1 Hm Hp He Hc Ha. exists 1%nat. split; [reflexivity|]. split; [exact Ha|]. cbn in He. inversion He; subst; clear He.
    destruct (first_setup m init Hm Hp) as [dims [Hs [Hg [_ [Hi Hset]]]]]. exists dims.
    cbn [a_comp a_pts fsm_api] in Hc. unfold fsm_compute, sweep_compute in Hc. cbn [fsm_setPoints fsm_new so_s so_sweeps so_max so_incs so_dims setInitialAndGoalPoints sv_setup sv_grid new_solver] in Hc.
    apply bind_ok in Hc. destruct Hc as [[oa ga] [Hx Hc]]. unfold fsm_setup in Hx. cbn [so_s so_sweeps so_max so_dims] in Hx. apply bind_ok in Hx. destruct Hx as [[s1 gb] [H0 Hx]]. apply Hset in H0. inversion H0; subst; clear H0. inversion Hx; subst; clear Hx.
    cbn [goal_of sv_goal sv_init bind so_s so_sweeps so_max so_incs so_dims] in Hc.
    assert (Ed : s_dims (g_sh (clean m)) = dims). { change (g_sh (clean m)) with (g_sh (setClean (clean m) false)). destruct Hg as [-> _]. unfold mk_shape. destruct (partials 1 dims). reflexivity. }
    rewrite Ed in Hc. apply bind_ok in Hc. destruct Hc as [[[st n] incs] [Hrun Hc]]. inversion Hc; subst; clear Hc. pose proof Hs as [H2 Hlt].
    exists n, incs. split; [exact Hs|].
    pose proof (s_fsm_run_dir L _ H2 Hlt _ _ _ _ _ _ _ Hg Hi (C30_initial_directions _) : safe (fsm_run fuel (u32 ms) noGoal init 0 (init_incs (length (s_dims (g_sh (clean m))))) (setClean (clean m) false)) _) as K. rewrite Hrun in K. cbn [safe fst snd] in K. destruct K as [K1 K2].
    split; [exact K1|]. split; [exact K2|]. split; [|reflexivity].
    destruct (fsm_run_no_goal _ _ _ _ _ _ _ _ _ (ok_small _ _ Hs Hg) Hrun) as [Hst _]. unfold fsm_run in Hrun. apply bind_ok in Hrun. destruct Hrun as [g0 [Hz Hrun]].
    assert (G0 : grid_ok (s_dims (g_sh (clean m))) g0). { refine (foldM_inv_partial (grid_ok _) _ _ _ _ Hg _ Hz). intros a x b _ A B. exact (updCell_grid_ok _ _ _ _ _ B A). }
    exact (fsm_loop_end _ H2 Hlt _ _ _ _ _ (mkSw g0 true false) _ (C30_initial_directions _) G0 Hrun Hst (or_introl eq_refl)).
  - intros init k o g f [-> [Hz [dims [sw [incs [Hs [Hg [Hd [Hq ->]]]]]]]]] Hf. cbn [a_comp fsm_api]. unfold fsm_compute, sweep_compute. cbn [so_s so_sweeps so_max so_incs so_dims sv_setup bind goal_of sv_goal sv_init]. pose proof Hs as [H2 Hlt].
    destruct (fsm_again L dims H2 Hlt f (u32 ms) init sw incs g Hf Hg Hd Hz Hq) as [st [n [incs' [E [Eg Hd']]]]]. rewrite E. cbn [bind]. do 2 eexists. split; [reflexivity|]. rewrite Eg.
    split; [split; [exact Hz|reflexivity]|]. split; [reflexivity|]. split; [exact Hz|]. exists dims, n, incs'. split; [exact Hs|]. split; [exact Hg|]. split; [exact Hd'|]. split; [|reflexivity].
    destruct Hq as [Hq|Hq]; [left|right; exact Hq].
    clear -E Hq Hz Hf. unfold fsm_run in E. rewrite (zero_same init g Hz) in E. cbn [bind] in E. destruct f as [|f]; [lia|]. cbn [sweep_loop sw_keep sw_stop negb andb] in E.
    destruct (Z.ltb_spec sw (u32 ms)); [lia|]. inversion E; subst. exact Hq.
Qed.

(** *** cases *)
(** [compute] three times on the 3x3 map of C83 (an obstacle, four velocities), two initial
    points: the hypotheses hold and the three answers agree *)
Definition same_times (g1 g2 : grid F64) : bool := forallb (fun '(a, b) => nleb (c_val a) (c_val b) && nleb (c_val b) (c_val a)) (combine (g_cells g1) (g_cells g2)).
Definition zero_times (init : list Z) (g : grid F64) : bool := forallb (fun i => match getArrivalTime g i with Ok t => nleb t n0 && nleb n0 t | _ => false end) init.
Definition c88_run (A : api F64) clr (m : grid F64) init (f : nat) : bool :=
  match a_env A (a_new A) (Some m) with
  | Ok (o, g) => match a_comp A f (a_pts A o init (-1)) g with
                 | Ok (o1, g1) => zero_times init g1 && match perform A clr o1 g1 (map Compute [f; f]) with Ok (_, g2) => same_times g1 g2 | _ => false end
                 | _ => false end
  | _ => false end.
Example C88_case : good_map c83_a /\ points_in c83_a [0; 8] (-1) /\
  c88_run (fmm_api RefHeap TIME) (fmm_clear _) c83_a [0; 8] 400 = true /\ c88_run (fmm_api StdHeap NOHEUR) (fmm_clear _) c83_a [0; 8] 400 = true /\
  c88_run (fim_api (comp_margin : F64)) fim_clear c83_a [0; 8] 400 = true /\ c88_run (gmm_api half64) gmm_clear c83_a [0; 8] 400 = true /\
  c88_run (fsm_api 1000) fsm_clear c83_a [0; 8] 400 = true.
Proof.
  split; [apply vgrid_good; [split; [repeat (constructor; [lia|]); constructor|cbn; lia]|reflexivity]|].
  split. { intros dims [_ Hd]. rewrite <- Hd. split; [|left; reflexivity]. intros x [<-|[<-|[]]]; cbn; lia. }
  repeat split; vm_compute; reflexivity.
Qed.

(** the narrow bands of the library meet the condition on heaps *)
Definition C88_fmm_bands := (C88_fmm_doubles StdHeap StdBag, C88_fmm_doubles DaryHeap (DaryBag F64_laws), C88_fmm_doubles FibHeap (FibBag F64_laws)).

Print Assumptions C88_fmm_doubles. Print Assumptions C88_fim. Print Assumptions C88_gmm. Print Assumptions C88_fsm.

(** FIMX.v - FIM: list invariants, and in exact arithmetic the result of every run
    that empties the list is a sub-solution (proofs for C36). *)
From Coq Require Import Reals Lra Permutation.
From Verif Require Import Base BaseFacts Num NumXR NumLaws Grid GridFacts GridUpd GridMore Spec Obs Eikonal
  SweepModel QueueModel Frame FMMStruct EikR Solution XGrid FMMAbs FMMX Relax Examples Term SweepX Exact Evolve Bound.
Open Scope Z_scope.

(** ** the iterator before the first element *)
Section UB.
Context {N : Num}.

Lemma fim_pass_ub_mono E goal after : forall (g : grid N) before stop ub g' l' stop' ub',
  fim_pass E goal g before after stop ub = Ok (g', l', stop', ub') -> ub = true -> ub' = true.
Proof.
  induction after as [|x r IH]; intros g before stop ub g' l' stop' ub' H Hub; cbn [fim_pass] in H.
  { injection H as <- <- <- <-. exact Hub. }
  apply bind_ok in H. destruct H as [p [_ H]]. apply bind_ok in H. destruct H as [q [_ H]].
  apply bind_ok in H. destruct H as [g1 [_ H]]. destruct (nleb (nabs (nsub p q)) E).
  - apply bind_ok in H. destruct H as [ns [_ H]]. apply bind_ok in H. destruct H as [[g2 ins] [_ H]].
    apply bind_ok in H. destruct H as [g3 [_ H]]. cbv zeta in H. eapply IH; [exact H|]. rewrite Hub. reflexivity.
  - eapply IH; eauto.
Qed.

Lemma fim_pass_grows E goal after : forall (g : grid N) before stop ub g' l' stop' ub',
  fim_pass E goal g before after stop ub = Ok (g', l', stop', ub') -> exists t, l' = before ++ t.
Proof.
  induction after as [|x r IH]; intros g before stop ub g' l' stop' ub' H; cbn [fim_pass] in H.
  { injection H as <- <- <- <-. exists []. rewrite app_nil_r. reflexivity. }
  apply bind_ok in H. destruct H as [p [_ H]]. apply bind_ok in H. destruct H as [q [_ H]].
  apply bind_ok in H. destruct H as [g1 [_ H]]. destruct (nleb (nabs (nsub p q)) E).
  - apply bind_ok in H. destruct H as [ns [_ H]]. apply bind_ok in H. destruct H as [[g2 ins] [_ H]].
    apply bind_ok in H. destruct H as [g3 [_ H]]. cbv zeta in H. apply IH in H. destruct H as [t ->].
    exists (ins ++ t). rewrite app_assoc. reflexivity.
  - apply IH in H. destruct H as [t ->]. exists (x :: t). rewrite <- app_assoc. reflexivity.
Qed.

Lemma fim_pass_empties E goal after : forall (g : grid N) before stop ub g' stop' ub',
  fim_pass E goal g before after stop ub = Ok (g', [], stop', ub') -> before ++ after <> [] -> ub' = true.
Proof.
  induction after as [|x r IH]; intros g before stop ub g' stop' ub' H Hne; cbn [fim_pass] in H.
  { injection H as <- -> <- <-. rewrite app_nil_r in Hne. congruence. }
  apply bind_ok in H. destruct H as [p [_ H]]. apply bind_ok in H. destruct H as [q [_ H]].
  apply bind_ok in H. destruct H as [g1 [_ H]]. destruct (nleb (nabs (nsub p q)) E).
  - apply bind_ok in H. destruct H as [ns [_ H]]. apply bind_ok in H. destruct H as [[g2 ins] [_ H]].
    apply bind_ok in H. destruct H as [g3 [_ H]]. cbv zeta in H.
    destruct (before ++ ins) as [|a b] eqn:Eb.
    + eapply fim_pass_ub_mono; [exact H|]. apply orb_true_r.
    + apply fim_pass_grows in H. destruct H as [t Ht]. discriminate.
  - apply fim_pass_grows in H. destruct H as [t Ht]. destruct before; discriminate.
Qed.

Lemma fim_loop_ub_mono fuel E goal : forall (g : grid N) l stop ub g' l' ub',
  fim_loop fuel E goal g l stop ub = Ok (g', l', ub') -> ub = true -> ub' = true.
Proof.
  induction fuel as [|k IH]; intros g l stop ub g' l' ub' H Hub; cbn [fim_loop] in H;
    (destruct stop; [injection H as <- <- <-; exact Hub|]); (destruct l as [|x l]; [injection H as <- <- <-; exact Hub|]); [discriminate|].
  apply bind_ok in H. destruct H as [[[[g1 l1] st1] ub1] [H1 H]]. eapply IH; [exact H|]. eapply fim_pass_ub_mono; eauto.
Qed.

Lemma fim_loop_empties fuel E goal : forall (g : grid N) l stop ub g' ub',
  fim_loop fuel E goal g l stop ub = Ok (g', [], ub') -> l <> [] -> ub' = true.
Proof.
  induction fuel as [|k IH]; intros g l stop ub g' ub' H Hl; cbn [fim_loop] in H;
    (destruct stop; [injection H as <- -> <-; congruence|]); (destruct l as [|x l]; [congruence|]); [discriminate|].
  apply bind_ok in H. destruct H as [[[[g1 l1] st1] ub1] [H1 H]].
  destruct l1 as [|y l1].
  - eapply fim_loop_ub_mono; [exact H|]. eapply fim_pass_empties; [exact H1|discriminate].
  - eapply IH; [exact H|discriminate].
Qed.

End UB.

(** ** the list and the NARROW cells, any arithmetic *)
Section Lists.
Context {N : Num}.
Variable dims : list Z.
Hypothesis Hp : proper dims.
Hypothesis Hlt : 2 * box_size dims <= 4294967296.
Variable init : list Z.
Variable g0 : grid N.
Hypothesis Hg0 : grid_ok dims g0.
Hypothesis Hsep : separated dims g0 init.

(** [L] has no duplicates and lists exactly the NARROW cells, apart from those in [E] *)
Record LI (g : grid N) (L : list Z) (E : Z -> Prop) : Prop := {
  li_f : frame (fun i => In i init) g0 g;
  li_nd : NoDup L;
  li_in : forall x, In x L -> free g0 x /\ ~ E x /\ exists c, getCell g x = Ok c /\ c_state c = NARROW;
  li_nar : forall x c, getCell g x = Ok c -> c_state c = NARROW -> In x L \/ E x
}.

Lemma LI_perm g L L' E : Permutation L L' -> LI g L E -> LI g L' E.
Proof.
  intros P [A B C D]. constructor; auto.
  - eapply Permutation_NoDup; eauto.
  - intros x Hx. apply C. eapply Permutation_in; [symmetry; exact P|exact Hx].
  - intros x c Hc Hs. destruct (D x c Hc Hs) as [H|H]; [left; eapply Permutation_in; eauto|right; exact H].
Qed.

(** times do not matter *)
Lemma LI_val g L E i t g' : LI g L E -> (In i init \/ free g i) -> setArrivalTime g i t = Ok g' -> LI g' L E.
Proof.
  intros [A B C D] Hi H. constructor; auto.
  - eapply frame_trans; [exact A|]. eapply setArrivalTime_frame; [exact H|].
    destruct Hi as [Hi|[c [Hc Ho]]]; [left; exact Hi|right; intros; congruence].
  - intros x Hx. destruct (C x Hx) as [K1 [K3 [c [Hc Hs]]]]. do 2 (split; [assumption|]).
    rewrite (updCell_get _ _ _ _ x H). destruct (i =? x); rewrite Hc; eexists; (split; [reflexivity|exact Hs]).
  - intros x c Hc Hs. rewrite (updCell_get _ _ _ _ x H) in Hc. destruct (i =? x); [|eauto].
    destruct (getCell g x) as [c0|] eqn:E0; [|discriminate]. injection Hc as <-. eauto.
Qed.

(** listing a cell *)
Lemma LI_add g L E i c g' : LI g L E -> getCell g i = Ok c -> c_state c <> NARROW -> free g0 i -> ~ E i ->
  setState g i NARROW = Ok g' -> LI g' (i :: L) E.
Proof.
  intros [A B C D] Hc Hs Hf HE H.
  assert (HiL : ~ In i L). { intros Hi. destruct (C i Hi) as [_ [_ [c' [Hc' Hs']]]]. congruence. }
  constructor.
  - eapply frame_trans; [exact A|]. eapply setState_frame; eauto.
  - constructor; assumption.
  - intros x [<-|Hx].
    + do 2 (split; [assumption|]). rewrite (updCell_get _ _ _ _ i H), Z.eqb_refl, Hc. eexists; split; reflexivity.
    + destruct (C x Hx) as [K1 [K3 [cx [Hcx Hsx]]]]. do 2 (split; [assumption|]).
      rewrite (updCell_get _ _ _ _ x H). destruct (i =? x); rewrite Hcx; eexists; (split; [reflexivity|]); auto.
  - intros x cx Hcx Hsx. destruct (Z.eq_dec i x) as [->|Hne]; [left; left; reflexivity|].
    rewrite (updCell_get _ _ _ _ x H) in Hcx. apply Z.eqb_neq in Hne. rewrite Hne in Hcx.
    destruct (D x cx Hcx Hsx); [left; right|right]; assumption.
Qed.

(** freezing a cell that is not listed *)
Lemma LI_freeze g L (E : Z -> Prop) i g' : LI g L E -> ~ In i L -> setState g i FROZEN = Ok g' -> LI g' L (fun x => E x /\ x <> i).
Proof.
  intros [A B C D] HiL H. constructor; auto.
  - eapply frame_trans; [exact A|]. eapply setState_frame; eauto.
  - intros x Hx. destruct (C x Hx) as [K1 [K3 [cx [Hcx Hsx]]]]. split; [assumption|]. split; [tauto|].
    rewrite (updCell_get _ _ _ _ x H). destruct (Z.eqb_spec i x) as [->|Hne]; [contradiction|]. eauto.
  - intros x cx Hcx Hsx. rewrite (updCell_get _ _ _ _ x H) in Hcx.
    destruct (Z.eqb_spec i x) as [->|Hne].
    + destruct (getCell g x); [|discriminate]. injection Hcx as <-. discriminate.
    + destruct (D x cx Hcx Hsx); [left|right; split]; auto.
Qed.

(** taking a listed cell out *)
Lemma LI_take g L x : LI g (x :: L) (fun _ => False) -> LI g L (fun y => y = x).
Proof.
  intros [A B C D]. inversion B as [|? ? B1 B2]; subst. constructor; auto.
  - intros y Hy. destruct (C y (or_intror Hy)) as [K1 [_ K4]]. split; [assumption|]. split; [congruence|exact K4].
  - intros y c Hc Hs. destruct (D y c Hc Hs) as [[->|H]|[]]; auto.
Qed.

Lemma LI_ext g L (E E' : Z -> Prop) : (forall x, E x <-> E' x) -> LI g L E -> LI g L E'.
Proof.
  intros H [A B C D]. constructor; auto.
  - intros x Hx. destruct (C x Hx) as [K1 [K3 K4]]. do 2 (split; auto). rewrite <- H. exact K3.
  - intros x c Hc Hs. rewrite <- H. eauto.
Qed.

Lemma LI_neighbor L x (s s' : grid N * list Z) j : LI (fst s) (snd s ++ L) (fun y => y = x) ->
  j <> x -> fim_neighbor s j = Ok s' ->
  LI (fst s') (snd s' ++ L) (fun y => y = x).
Proof.
  destruct s as [g ins]. unfold fim_neighbor. cbn [fst snd]. intros HI Hjx H.
  apply bind_ok in H. destruct H as [c [Hc H]].
  destruct (fmstate_eqb (c_state c) NARROW) eqn:Es; cbn [negb andb] in H; [injection H as <-; exact HI|].
  destruct (isOccupied c) eqn:Eo; cbn [negb] in H; [injection H as <-; exact HI|].
  apply bind_ok in H. destruct H as [q [Hq H]]. destruct (isTimeBetterThan q (c_val c)) eqn:Eb; [|injection H as <-; exact HI].
  apply bind_ok in H. destruct H as [g1 [H1 H]]. apply bind_ok in H. destruct H as [g2 [H2 H]]. injection H as <-. cbn [fst snd].
  assert (Hfr : free g0 j) by (eapply frame_free_inv; [exact (li_f _ _ _ HI)|exists c; split; assumption]).
  apply (LI_perm g2 (j :: ins ++ L)).
  { rewrite <- app_assoc. cbn [app]. apply Permutation_middle. }
  apply (LI_add g1 (ins ++ L) (fun y => y = x) j (with_val c q)); try assumption.
  - apply (LI_val g _ _ j q); [exact HI|right; exists c; split; assumption|exact H1].
  - rewrite (updCell_get _ _ _ _ j H1), Z.eqb_refl, Hc. reflexivity.
  - cbn [with_val c_state]. intros E. rewrite E in Es. discriminate.
Qed.

(** neighbours of a cell of the grid differ from it *)
Lemma nbrs_ne g x ns j : frame (fun i => In i init) g0 g -> 0 <= x < box_size dims ->
  getNeighbors (g_sh g) x = Ok ns -> In j ns -> j <> x /\ adjacent dims x j.
Proof.
  intros Hf Hx H Hj. assert (Hsh : g_sh g = mk_shape dims) by (rewrite <- (proj1 Hg0); apply Hf).
  rewrite Hsh, getNeighbors_eq in H by assumption. injection H as <-. apply (nbrs_spec dims x j Hp Hx) in Hj. split; [|exact Hj].
  intros ->. exact (adjacent_irrefl _ _ Hj).
Qed.

Lemma fim_pass_LI E goal after : forall g before stop ub g' l' stop' ub', 
  LI g (before ++ after) (fun _ => False) ->
  fim_pass E goal g before after stop ub = Ok (g', l', stop', ub') -> LI g' l' (fun _ => False).
Proof.
  induction after as [|x r IH]; intros g before stop ub g' l' stop' ub' HI H; cbn [fim_pass] in H.
  { injection H as <- <- <- <-. rewrite app_nil_r in HI. exact HI. }
  apply bind_ok in H. destruct H as [p [_ H]]. apply bind_ok in H. destruct H as [q [Hq H]].
  apply bind_ok in H. destruct H as [g1 [H1 H]].
  destruct (li_in _ _ _ HI x ltac:(apply in_app_iff; right; left; reflexivity)) as [Hfx [_ [cx [Hcx _]]]].
  assert (Hxr : 0 <= x < box_size dims) by (destruct Hfx as [c0 [Hc0 _]]; apply getCell_range in Hc0; destruct Hg0 as [_ <-]; exact Hc0).
  assert (HI1 : LI g1 (before ++ x :: r) (fun _ => False)).
  { apply (LI_val g _ _ x q); [exact HI|right; eapply frame_free; [exact (li_f _ _ _ HI)|exact Hfx]|exact H1]. }
  destruct (nleb (nabs (nsub p q)) E).
  - apply bind_ok in H. destruct H as [ns [Hns H]]. apply bind_ok in H. destruct H as [[g2 ins] [Hfold H]].
    apply bind_ok in H. destruct H as [g3 [H3 H]]. cbv zeta in H.
    assert (HI2 : LI g1 (before ++ r) (fun y => y = x)).
    { apply LI_take. eapply LI_perm; [|exact HI1]. symmetry. apply Permutation_middle. }
    assert (HI3 : LI g2 (ins ++ before ++ r) (fun y => y = x)).
    { change (LI (fst (g2, ins)) (snd (g2, ins) ++ before ++ r) (fun y => y = x)).
      refine (foldM_inv_partial (fun s : grid N * list Z => LI (fst s) (snd s ++ before ++ r) (fun y => y = x)) fim_neighbor ns _ _ _ _ Hfold).
      - exact HI2.
      - intros s j s' Hj Hs Hst. eapply LI_neighbor; [exact Hs| |exact Hst].
        eapply nbrs_ne; [exact (li_f _ _ _ HI1)|exact Hxr|exact Hns|exact Hj]. }
    eapply IH; [|exact H]. 
    assert (HI4 : LI g3 (ins ++ before ++ r) (fun y => y = x /\ y <> x)).
    { eapply LI_freeze; [exact HI3| |exact H3]. intros Hin. apply (li_in _ _ _ HI3) in Hin. tauto. }
    eapply LI_perm; [|eapply LI_ext; [|exact HI4]; intros; tauto].
    rewrite <- app_assoc. rewrite !app_assoc. apply Permutation_app_tail. apply Permutation_app_comm.
  - eapply IH; [|exact H]. rewrite <- app_assoc. exact HI1.
Qed.

Lemma fim_loop_LI fuel E goal : forall g l stop ub g' l' ub',
  LI g l (fun _ => False) -> fim_loop fuel E goal g l stop ub = Ok (g', l', ub') -> LI g' l' (fun _ => False).
Proof.
  induction fuel as [|k IH]; intros g l stop ub g' l' ub' HI H; cbn [fim_loop] in H;
    (destruct stop; [injection H as <- <- <-; exact HI|]); (destruct l as [|x l]; [injection H as <- <- <-; exact HI|]); [discriminate|].
  apply bind_ok in H. destruct H as [[[[g1 l1] st1] ub1] [H1 H]]. eapply IH; [|exact H]. eapply fim_pass_LI; [|exact H1]. exact HI.
Qed.

(** the initial points: the list holds the free cells next to them *)
Hypothesis Hrng : forall i, In i init -> 0 <= i < box_size dims.
Hypothesis Hopen : forall i c, getCell g0 i = Ok c -> c_state c = OPEN.

Definition PI (s : fim_state (N := N)) : Prop :=
  LI (fi_g s) (fi_l s) (fun _ => False) /\ (forall x, In x (fi_l s) -> ~ In x init) /\
  (forall x c, getCell (fi_g s) x = Ok c -> c_state c = FROZEN -> In x init).

Definition init_body (s : fim_state (N := N)) (j : Z) : res fim_state :=
  c <- getCell (fi_g s) j ;;
  if fmstate_eqb (c_state c) OPEN && negb (isOccupied c) then
    g' <- setState (fi_g s) j NARROW ;; Ok (mkFim g' (fi_l s ++ [j]))
  else Ok s.

Lemma fim_init_inner ns : forall s s', PI s -> (forall j, In j ns -> free g0 j -> ~ In j init) ->
  foldM init_body ns s = Ok s' ->
  PI s' /\ incl (fi_l s) (fi_l s') /\ forall j, In j ns -> free g0 j -> In j (fi_l s').
Proof.
  induction ns as [|j ns IH]; intros s s' HP Hns H; cbn [foldM] in H.
  { injection H as <-. split; [exact HP|]. split; [apply incl_refl|]. intros j []. }
  apply bind_ok in H. destruct H as [s1 [H1 H]].
  assert (Hstep : PI s1 /\ incl (fi_l s) (fi_l s1) /\ (free g0 j -> In j (fi_l s1))).
  { unfold init_body in H1. apply bind_ok in H1. destruct H1 as [c [Hc H1]]. destruct HP as [HI [Hni Hfz]].
    destruct (isOccupied c) eqn:Eo.
    { rewrite andb_false_r in H1. injection H1 as <-. split; [split; [exact HI|split; assumption]|]. split; [apply incl_refl|].
      intros Hf. apply (frame_free _ _ _ _ (li_f _ _ _ HI)) in Hf. destruct Hf as [c' [Hc' Ho']]. congruence. }
    assert (Hf : free g0 j) by (eapply frame_free_inv; [exact (li_f _ _ _ HI)|exists c; split; assumption]).
    specialize (Hns j (or_introl eq_refl) Hf). rewrite andb_true_r in H1.
    destruct (c_state c) eqn:Es; cbn [fmstate_eqb] in H1.
    - apply bind_ok in H1. destruct H1 as [g' [H1 H1']]. injection H1' as <-. unfold PI. cbn [fi_g fi_l]. split; [|split].
      + split; [|split].
        * apply (LI_perm g' (j :: fi_l s)); [apply Permutation_cons_append|].
          eapply LI_add; [exact HI|exact Hc|congruence|exact Hf|intros []|exact H1].
        * intros x Hx. apply in_app_or in Hx. destruct Hx as [Hx|[<-|[]]]; auto.
        * intros x cx Hcx Hsx. rewrite (updCell_get _ _ _ _ x H1) in Hcx. destruct (Z.eqb_spec j x) as [->|Hne].
          -- rewrite Hc in Hcx. injection Hcx as <-. discriminate.
          -- eauto.
      + intros x Hx. apply in_or_app. auto.
      + intros _. apply in_or_app. right; left; reflexivity.
    - injection H1 as <-. split; [split; [exact HI|split; assumption]|]. split; [apply incl_refl|]. intros _.
      destruct (li_nar _ _ _ HI j c Hc Es) as [K|[]]; exact K.
    - injection H1 as <-. exfalso. apply Hns. eapply Hfz; eauto. }
  destruct Hstep as [P1 [I1 L1]].
  destruct (IH s1 s' P1 ltac:(intros; apply Hns; [right|]; assumption) H) as [P2 [I2 L2]].
  split; [exact P2|]. split; [intros x Hx; auto|]. intros k [<-|Hk] Hf; [apply I2; auto|auto].
Qed.

Lemma fim_init_lists ii : forall s s', PI s -> incl ii init ->
  foldM fim_init1 ii s = Ok s' ->
  PI s' /\ incl (fi_l s) (fi_l s') /\ forall i j, In i ii -> adjacent dims i j -> free g0 j -> In j (fi_l s').
Proof.
  induction ii as [|i ii IH]; intros s s' HP Hinc H; cbn [foldM] in H.
  { injection H as <-. split; [exact HP|]. split; [apply incl_refl|]. intros i j []. }
  apply bind_ok in H. destruct H as [s1 [H1 H]]. assert (Hi : In i init) by (apply Hinc; left; reflexivity).
  unfold fim_init1 in H1. apply bind_ok in H1. destruct H1 as [g1 [G1 H1]].
  apply bind_ok in H1. destruct H1 as [g2 [G2 H1]]. apply bind_ok in H1. destruct H1 as [ns [Hns H1]].
  fold init_body in H1.
  destruct HP as [HI [Hni Hfz]].
  assert (HI1 : LI g1 (fi_l s) (fun _ => False)) by (apply (LI_val (fi_g s) _ _ i n0); auto).
  assert (HI2 : LI g2 (fi_l s) (fun _ => False)).
  { eapply LI_ext; [|eapply LI_freeze; [exact HI1| |exact G2]]; [intros; cbn; tauto|]. intros K. apply (Hni i K Hi). }
  assert (Hadj : forall j, In j ns <-> adjacent dims i j).
  { assert (Hsh : g_sh g2 = mk_shape dims) by (rewrite <- (proj1 Hg0); apply (li_f _ _ _ HI2)).
    rewrite Hsh, getNeighbors_eq in Hns by auto. injection Hns as <-. intros j. apply nbrs_spec; auto. }
  destruct (fim_init_inner ns (mkFim g2 (fi_l s)) s1) as [P1 [I1 L1]].
  { split; [exact HI2|]. split; [exact Hni|]. cbn [fi_g]. intros x c Hc Hs.
    rewrite (updCell_get _ _ _ _ x G2) in Hc. destruct (Z.eqb_spec i x) as [<-|Hne]; [exact Hi|].
    rewrite (updCell_get _ _ _ _ x G1) in Hc. apply Z.eqb_neq in Hne. rewrite Hne in Hc. eauto. }
  { intros j Hj Hf Hin. apply (Hsep i j Hi Hin); [apply Hadj, Hj|exact Hf]. }
  { exact H1. }
  destruct (IH s1 s' P1 ltac:(intros x Hx; apply Hinc; right; exact Hx) H) as [P2 [I2 L2]].
  split; [exact P2|]. split; [intros x Hx; apply I2, I1; exact Hx|].
  intros k j [<-|Hk] Ha Hf; [|eauto]. apply I2, L1; [apply Hadj, Ha|exact Hf].
Qed.

Lemma PI_start : PI (mkFim g0 []).
Proof.
  split; [|split].
  - constructor; [apply frame_refl|constructor|intros x []|]. cbn. intros x c Hc Hs. rewrite (Hopen x c Hc) in Hs. discriminate.
  - intros x [].
  - cbn. intros x c Hc Hs. rewrite (Hopen x c Hc) in Hs. discriminate.
Qed.

Theorem fim_run_lists fuel E goal g' l ub :
  fim_run fuel E goal init g0 = Ok (g', l, ub) -> LI g' l (fun _ => False).
Proof.
  intros H. unfold fim_run in H. apply bind_ok in H. destruct H as [s [Hs H]].
  destruct (fim_init_lists init _ _ PI_start (incl_refl _) Hs) as [[HI _] _]. eapply fim_loop_LI; eauto.
Qed.

Theorem fim_run_ub fuel E goal g' ub i j : In i init -> adjacent dims i j -> free g0 j ->
  fim_run fuel E goal init g0 = Ok (g', [], ub) -> ub = true.
Proof.
  intros Hi Ha Hf H. unfold fim_run in H. apply bind_ok in H. destruct H as [s [Hs H]].
  destruct (fim_init_lists init _ _ PI_start (incl_refl _) Hs) as [_ [_ L]].
  eapply fim_loop_empties; [exact H|]. intros E0. specialize (L i j Hi Ha Hf). rewrite E0 in L. destruct L.
Qed.

End Lists.

(** ** exact arithmetic: an emptied list leaves a sub-solution *)
Section FX.
Variable dims : list Z.
Hypothesis Hd2 : dims2 dims.
Hypothesis Hlt : 2 * box_size dims <= 4294967296.
Variable init : list Z.
Hypothesis Hrng : forall i, In i init -> 0 <= i < box_size dims.
Variable g0 : grid XR.
Hypothesis Hg0 : grid_ok dims g0.
Hypothesis Hreal : reals_ok g0.
Hypothesis Hfresh : forall i c, getCell g0 i = Ok c -> c_val c = XPInf.
Hypothesis Hopen : forall i c, getCell g0 i = Ok c -> c_state c = OPEN.
Hypothesis Hsep : separated dims g0 init.
Variable e : R.
Hypothesis He : (0 <= e)%R.
Variable X : time_map.
Hypothesis HX : exact_solution dims (fun i => In i init) (free g0) (slow g0) X.

Let Hp : proper dims := dims2_proper dims Hd2.
Notation fr := (free g0).
Notation f := (slow g0).
Notation M := Rmargin.
Let Hf : forall i, fr i -> (0 < f i)%R.
Proof. intros i Hi. apply slow_pos; assumption. Qed.

(** settled up to the tolerance *)
Definition sett (T : time_map) (i : Z) : Prop :=
  match T i with
  | None => forall j, adjacent dims i j -> T j = None
  | Some t => (upwind_sum (somes (dmins dims T i)) (t - (2 * M + e)) < f i * f i)%R
  end.

Lemma sett_ext T T' i : 0 <= i < box_size dims -> T' i = T i -> (forall j, adjacent dims i j -> T' j = T j) ->
  sett T i -> sett T' i.
Proof.
  intros Hi E Ea H. unfold sett in *. rewrite E. destruct (T i) as [t|].
  - rewrite (dmins_ext dims T' T i Hp Hi Ea). exact H.
  - intros j Hj. rewrite Ea by exact Hj. auto.
Qed.

Lemma sett_not_better T i : fr i -> 0 <= i < box_size dims ->
  (forall u, eik dims (f i) T i = Some u -> ~ better u (T i)) -> sett T i.
Proof.
  intros Hfi Hi Hnb. unfold sett. pose proof Rmargin_pos. destruct (T i) as [t|] eqn:Et.
  - destruct (eik dims (f i) T i) as [u|] eqn:Ee.
    + specialize (Hnb u eq_refl). cbn in Hnb. destruct (eik_some _ _ _ _ _ Ee) as [Hne Hu]. rewrite Et in *.
      cbn [upw] in *. destruct (RF_bounds (f i) M _ (Hf i Hfi) Rmargin_pos Hne) as [_ [R2 _]]. rewrite <- Hu in R2.
      rewrite (US_below_eq t) by lra. eapply Rle_lt_trans; [|exact R2]. apply US_mono. lra.
    + apply eik_none in Ee. rewrite Et in Ee. cbn [upw] in Ee. rewrite (US_below_eq t) by lra. rewrite Ee.
      cbn. pose proof (Hf i Hfi). nra.
  - destruct (eik dims (f i) T i) as [u|] eqn:Ee; [exfalso; apply (Hnb u eq_refl); exact I|].
    apply eik_none in Ee. rewrite Et in Ee. cbn [upw] in Ee. intros j Hj. eapply somes_dmins_empty; eauto.
Qed.

(** a converged cell *)
Lemma sett_converged T T' i p q : fr i -> 0 <= i < box_size dims -> T i = Some p -> eik dims (f i) T i = Some q ->
  (Rabs (p - q) <= e)%R -> T' i = Some q -> (forall j, adjacent dims i j -> T' j = T j) -> sett T' i.
Proof.
  intros Hfi Hi Ep Eq Hab E' Ea. unfold sett. rewrite E', (dmins_ext dims T' T i Hp Hi Ea).
  destruct (eik_some _ _ _ _ _ Eq) as [Hne Hu]. rewrite Ep in *. cbn [upw] in *.
  destruct (RF_bounds (f i) M _ (Hf i Hfi) Rmargin_pos Hne) as [_ [R2 _]]. rewrite <- Hu in R2.
  pose proof Rmargin_pos. apply Rabs_def2b in Hab || (unfold Rabs in Hab; destruct (Rcase_abs (p - q)) in Hab).
  all: rewrite (US_below_eq p) by lra; eapply Rle_lt_trans; [|exact R2]; apply US_mono; lra.
Qed.

Lemma conv_X (a b : XR) : nleb (nabs (nsub a b)) (XFin e : XR) = true ->
  exists p q, a = XFin p /\ b = XFin q /\ (Rabs (p - q) <= e)%R.
Proof.
  destruct a as [p| | |], b as [q| | |]; cbn; try discriminate.
  intros H. exists p, q. do 2 (split; [reflexivity|]). apply Rleb_true in H. exact H.
Qed.

Record FX (g : grid XR) (L Rm : list Z) (E : Z -> Prop) : Prop := {
  fx_li : LI init g0 g L E;
  fx_ev : ev init g0 g;
  fx_src : forall i, In i init -> times g i = Some 0%R;
  fx_ni : forall x, In x L -> ~ In x init;
  fx_cov : forall i, 0 <= i < box_size dims -> fr i -> ~ In i init ->
     sett (times g) i \/ In i L \/ (exists j, In j L /\ adjacent dims i j) \/ In i Rm
}.

Lemma fx_ok g L Rm E : FX g L Rm E -> times_ok g /\ grid_ok dims g /\ reals_ok g /\ (forall i, slow g i = f i) /\
  frame (fun i => In i init) g0 g.
Proof.
  intros F. pose proof (ev_frame _ _ _ (fx_ev _ _ _ _ F)) as HF.
  destruct (ev_above dims init Hd2 Hlt X g0 g Hg0 Hreal HX Hfresh (fx_ev _ _ _ _ F)) as [A _].
  split; [exact A|]. split; [eapply frame_grid_ok; eauto|]. split; [eapply frame_reals; eauto|].
  split; [eapply frame_slow; eauto|exact HF].
Qed.

Lemma fx_solve g L Rm E i : FX g L Rm E -> fr i -> solveEikonal g i = Ok (ox (eik dims (f i) (times g) i)).
Proof.
  intros F Hfi. destruct (fx_ok _ _ _ _ F) as [A [B [C [D G]]]]. rewrite <- D.
  assert (Hi : 0 <= i < box_size dims).
  { destruct Hfi as [c [Hc _]]. apply getCell_range in Hc. destruct Hg0 as [_ <-]. exact Hc. }
  apply solveEikonal_X; auto. eapply frame_free; eauto.
Qed.

Lemma free_rng i : fr i -> 0 <= i < box_size dims.
Proof. intros [c [Hc _]]. apply getCell_range in Hc. destruct Hg0 as [_ <-]. exact Hc. Qed.

(** sources have no update *)
Lemma src_eik g L Rm E i : FX g L Rm E -> In i init -> eik dims (f i) (times g) i = None.
Proof.
  intros F Hi. destruct (fx_ok _ _ _ _ F) as [A _]. unfold eik. rewrite (fx_src _ _ _ _ F i Hi). cbn [upw].
  destruct (below 0 (somes (dmins dims (times g) i))) as [|x r] eqn:Eb; [reflexivity|exfalso].
  assert (Hx : In x (below 0 (somes (dmins dims (times g) i)))) by (rewrite Eb; left; reflexivity).
  apply in_below in Hx. destruct Hx as [Hx Hlt0]. apply (in_somes_dmins dims Hp) in Hx; [|auto].
  destruct Hx as [k [_ Hk]]. pose proof (times_nonneg _ _ _ A Hk). lra.
Qed.

Lemma times_other (g g' : grid XR) i t k : setArrivalTime g i t = Ok g' -> k <> i -> times g' k = times g k.
Proof.
  intros H Hk. unfold times, getArrivalTime. rewrite (updCell_get _ _ _ _ k H).
  assert (E : (i =? k) = false) by (apply Z.eqb_neq; congruence). rewrite E. reflexivity.
Qed.

(** an arbitrary new time for a listed cell *)
Lemma fx_set g L Rm E x t g' : FX g L Rm E -> In x L -> ev init g0 g' -> LI init g0 g' L E ->
  setArrivalTime g x t = Ok g' -> FX g' L Rm E.
Proof.
  intros F Hx He' Hl H. constructor; auto.
  - intros i Hi. rewrite (times_other _ _ _ _ _ H); [apply (fx_src _ _ _ _ F), Hi|].
    intros ->. exact (fx_ni _ _ _ _ F x Hx Hi).
  - apply (fx_ni _ _ _ _ F).
  - intros i Hi Hfi Hni. destruct (Z.eq_dec i x) as [->|Hne]; [right; left; exact Hx|].
    destruct (in_dec Z.eq_dec x (nbrs dims i)) as [Ha|Ha].
    { right; right; left. exists x. split; [exact Hx|]. apply nbrs_spec; auto. }
    destruct (fx_cov _ _ _ _ F i Hi Hfi Hni) as [S|S]; [left|right; exact S].
    eapply sett_ext; [exact Hi|eapply times_other; eauto| |exact S].
    intros j Hj. eapply times_other; eauto. intros ->. apply Ha. apply nbrs_spec; auto.
Qed.

Lemma fx_meta g g' L L' Rm E E' : FX g L Rm E -> LI init g0 g' L' E' -> ev init g0 g' -> times g' = times g ->
  (forall x, In x L' <-> In x L) -> FX g' L' Rm E'.
Proof.
  intros F Hl He' Ht HL. constructor; auto.
  - rewrite Ht. apply F.
  - intros x Hx. apply (fx_ni _ _ _ _ F). apply HL, Hx.
  - intros i Hi Hfi Hni. rewrite Ht. destruct (fx_cov _ _ _ _ F i Hi Hfi Hni) as [S|[S|[[j [J1 J2]]|S]]]; auto.
    + right; left. apply HL, S.
    + right; right; left. exists j. split; [apply HL, J1|exact J2].
Qed.

Lemma fx_neighbor x L j Rm (s s' : grid XR * list Z) : FX (fst s) (snd s ++ L) (j :: Rm) (fun y => y = x) ->
  j <> x -> fim_neighbor s j = Ok s' -> FX (fst s') (snd s' ++ L) Rm (fun y => y = x).
Proof.
  intros F Hjx H. pose proof (LI_neighbor init g0 L x s s' j (fx_li _ _ _ _ F) Hjx H) as HL.
  destruct s as [g ins]. cbn [fst snd] in *. destruct (fx_ok _ _ _ _ F) as [A [B [C [D G]]]].
  (* j can be dropped from the remaining cells when it is listed or settled *)
  assert (Hdrop : (fr j -> ~ In j init -> sett (times g) j \/ In j (ins ++ L)) -> FX g (ins ++ L) Rm (fun y => y = x)).
  { intros Hj. destruct F as [F1 F2 F3 F4 F5]. constructor; auto. intros i Hi Hfi Hni.
    destruct (F5 i Hi Hfi Hni) as [S|[S|[S|[<-|S]]]]; auto. destruct (Hj Hfi Hni); auto. }
  unfold fim_neighbor in H. apply bind_ok in H. destruct H as [c [Hc H]].
  destruct (fmstate_eqb (c_state c) NARROW) eqn:Es; cbn [negb andb] in H.
  { injection H as <-. cbn [fst snd]. apply Hdrop. intros _ _. right.
    destruct (li_nar _ _ _ _ _ (fx_li _ _ _ _ F) j c Hc) as [K|K]; [|exact K|contradiction]. destruct (c_state c); congruence || discriminate. }
  destruct (isOccupied c) eqn:Eo; cbn [negb] in H.
  { injection H as <-. cbn [fst snd]. apply Hdrop. intros Hfj _. exfalso.
    apply (frame_free _ _ _ _ G) in Hfj. destruct Hfj as [c' [Hc' Ho']]. congruence. }
  assert (Hfj : fr j) by (eapply frame_free_inv; [exact G|exists c; split; assumption]).
  pose proof (free_rng j Hfj) as Hjr.
  rewrite (fx_solve _ _ _ _ j F Hfj) in H. cbn [bind] in H.
  destruct (isTimeBetterThan (ox (eik dims (f j) (times g) j)) (c_val c)) eqn:Eb.
  - assert (Hni : ~ In j init).
    { intros Hin. rewrite (src_eik _ _ _ _ j F Hin) in Eb. cbn [ox] in Eb. rewrite inf_not_better in Eb. discriminate. }
    apply bind_ok in H. destruct H as [g1 [H1 H]]. apply bind_ok in H. destruct H as [g2 [H2 H]]. injection H as <-. cbn [fst snd] in *.
    assert (Et : times g2 = times g1) by (eapply times_upd_keep; [exact H2|reflexivity]).
    assert (Hin : In j ((ins ++ [j]) ++ L)) by (apply in_or_app; left; apply in_or_app; right; left; reflexivity).
    constructor; auto.
    + eapply setst; [|exact H2]. eapply setval_free; [exact (fx_ev _ _ _ _ F)|exact Hc|exact Eo| |exact H1]. eapply fx_solve; eauto.
    + intros i Hi. rewrite Et, (times_other _ _ _ _ _ H1); [apply (fx_src _ _ _ _ F), Hi|intros ->; contradiction].
    + intros y Hy. rewrite <- app_assoc in Hy. apply in_app_or in Hy. destruct Hy as [Hy|[<-|Hy]]; [|exact Hni|];
        apply (fx_ni _ _ _ _ F), in_or_app; auto.
    + intros i Hi Hfi Hii. rewrite Et. destruct (Z.eq_dec i j) as [->|Hne]; [right; left; exact Hin|].
      destruct (in_dec Z.eq_dec j (nbrs dims i)) as [Ha|Ha].
      { right; right; left. exists j. split; [exact Hin|]. apply nbrs_spec; auto. }
      assert (Hsub : forall y, In y (ins ++ L) -> In y ((ins ++ [j]) ++ L)).
      { intros y Hy. rewrite <- app_assoc. apply in_app_or in Hy. apply in_or_app. destruct Hy; [left|right; right]; assumption. }
      destruct (fx_cov _ _ _ _ F i Hi Hfi Hii) as [S|[S|[[k [K1 K2]]|[S|S]]]]; [|right; left; auto| | |right; right; right; exact S].
      * left. eapply sett_ext; [exact Hi|eapply times_other; eauto| |exact S].
        intros k Hk. eapply times_other; eauto. intros ->. apply Ha. apply nbrs_spec; auto.
      * right; right; left. exists k. auto.
      * congruence.
  - injection H as <-. cbn [fst snd]. apply Hdrop. intros _ _. left. apply sett_not_better; auto.
    intros u Hu Hb. rewrite Hu in Eb. cbn [ox] in Eb. apply (better_val g j c u A Hc) in Hb. congruence.
Qed.

Lemma fx_neighbors x L ns : forall s s', FX (fst s) (snd s ++ L) ns (fun y => y = x) ->
  (forall j, In j ns -> j <> x) -> foldM fim_neighbor ns s = Ok s' -> FX (fst s') (snd s' ++ L) [] (fun y => y = x).
Proof.
  induction ns as [|j ns IH]; intros s s' F Hne H; cbn [foldM] in H.
  { injection H as <-. exact F. }
  apply bind_ok in H. destruct H as [s1 [H1 H]]. eapply IH; [|intros; apply Hne; right; assumption|exact H].
  eapply fx_neighbor; [exact F|apply Hne; left; reflexivity|exact H1].
Qed.

Lemma fx_pass goal after : forall g before stop ub g' l' stop' ub',
  FX g (before ++ after) [] (fun _ => False) ->
  fim_pass (XFin e : XR) goal g before after stop ub = Ok (g', l', stop', ub') -> FX g' l' [] (fun _ => False).
Proof.
  induction after as [|x r IH]; intros g before stop ub g' l' stop' ub' F H; cbn [fim_pass] in H.
  { injection H as <- <- <- <-. rewrite app_nil_r in F. exact F. }
  apply bind_ok in H. destruct H as [p [Hpv H]]. apply bind_ok in H. destruct H as [q [Hq H]].
  apply bind_ok in H. destruct H as [g1 [H1 H]].
  assert (HxL : In x (before ++ x :: r)) by (apply in_app_iff; right; left; reflexivity).
  destruct (fx_ok _ _ _ _ F) as [A [B [C [D G]]]].
  destruct (li_in _ _ _ _ _ (fx_li _ _ _ _ F) x HxL) as [Hfx _].
  pose proof (free_rng x Hfx) as Hxr. pose proof (fx_ni _ _ _ _ F x HxL) as Hni.
  destruct (frame_free _ _ _ _ G Hfx) as [cx [Hcx Hox]].
  assert (Hev1 : ev init g0 g1) by (eapply setval_free; [exact (fx_ev _ _ _ _ F)|exact Hcx|exact Hox|exact Hq|exact H1]).
  assert (HLI1 : LI init g0 g1 (before ++ x :: r) (fun _ => False)).
  { apply (LI_val init g0 g _ _ x q); [exact (fx_li _ _ _ _ F)|right; exists cx; split; assumption|exact H1]. }
  assert (F1 : FX g1 (before ++ x :: r) [] (fun _ => False)) by (eapply fx_set; eauto).
  destruct (nleb (nabs (nsub p q)) (XFin e : XR)) eqn:Ec.
  - apply conv_X in Ec. destruct Ec as [p' [q' [-> [-> Hab]]]].
    apply bind_ok in H. destruct H as [ns [Hns H]]. apply bind_ok in H. destruct H as [[g2 ins] [Hfold H]].
    apply bind_ok in H. destruct H as [g3 [H3 H]]. cbv zeta in H.
    (* x is settled *)
    assert (Hset : sett (times g1) x).
    { pose proof (fx_solve _ _ _ _ x F Hfx) as Hs. rewrite Hq in Hs.
      destruct (eik dims (f x) (times g) x) as [q2|] eqn:Ee; cbn [ox] in Hs; [|discriminate]. injection Hs as ->.
      apply (sett_converged (times g) (times g1) x p' q2); auto.
      - unfold times. rewrite Hpv. reflexivity.
      - rewrite (times_set g x q2 g1 H1). apply upd_same.
      - intros j Hj. eapply times_other; eauto. intros ->. exact (adjacent_irrefl _ _ Hj). }
    assert (Hadj : ns = nbrs dims x).
    { destruct (fx_ok _ _ _ _ F1) as [_ [[Hsh _] _]]. rewrite Hsh, getNeighbors_eq in Hns by auto. congruence. }
    assert (F2 : FX g1 (before ++ r) ns (fun y => y = x)).
    { constructor; [| |apply (fx_src _ _ _ _ F1)| |]; auto.
      - apply LI_take. eapply LI_perm; [|exact HLI1]. symmetry. apply Permutation_middle.
      - intros y Hy. apply (fx_ni _ _ _ _ F1). apply in_app_or in Hy. apply in_or_app. destruct Hy; [left|right; right]; assumption.
      - intros i Hi Hfi Hii. destruct (Z.eq_dec i x) as [->|Hne]; [left; exact Hset|].
        destruct (fx_cov _ _ _ _ F1 i Hi Hfi Hii) as [S|[S|[[k [K1 K2]]|[]]]]; auto.
        + right; left. apply in_app_or in S. apply in_or_app. destruct S as [S|[S|S]]; [auto|congruence|auto].
        + destruct (Z.eq_dec k x) as [->|Hkx].
          * right; right; right. subst ns. apply nbrs_spec; auto. apply adjacent_sym, K2.
          * right; right; left. exists k. split; [|exact K2]. apply in_app_or in K1. apply in_or_app. destruct K1 as [S|[S|S]]; [auto|congruence|auto]. }
    assert (Hnx : forall j, In j ns -> j <> x).
    { intros j Hj ->. subst ns. apply nbrs_spec in Hj; auto. exact (adjacent_irrefl _ _ Hj). }
    pose proof (fx_neighbors x (before ++ r) ns (g1, []) (g2, ins) F2 Hnx Hfold) as F3. cbn [fst snd] in F3.
    eapply IH; [|exact H]. eapply fx_meta; [exact F3| | | |].
    + assert (HL4 : LI init g0 g3 (ins ++ before ++ r) (fun y => y = x /\ y <> x)).
      { eapply LI_freeze; [exact (fx_li _ _ _ _ F3)| |exact H3]. intros Hin. apply (li_in _ _ _ _ _ (fx_li _ _ _ _ F3)) in Hin. tauto. }
      eapply LI_perm; [|eapply LI_ext; [|exact HL4]; intros; tauto].
      rewrite !app_assoc. apply Permutation_app_tail. apply Permutation_app_comm.
    + eapply setst; [exact (fx_ev _ _ _ _ F3)|exact H3].
    + eapply times_upd_keep; [exact H3|reflexivity].
    + intros y. rewrite !in_app_iff. tauto.
  - eapply IH; [|exact H]. rewrite <- app_assoc. exact F1.
Qed.

Lemma fx_loop goal fuel : forall g l stop ub g' l' ub',
  FX g l [] (fun _ => False) -> fim_loop fuel (XFin e : XR) goal g l stop ub = Ok (g', l', ub') -> FX g' l' [] (fun _ => False).
Proof.
  induction fuel as [|k IH]; intros g l stop ub g' l' ub' HI H; cbn [fim_loop] in H;
    (destruct stop; [injection H as <- <- <-; exact HI|]); (destruct l as [|x l]; [injection H as <- <- <-; exact HI|]); [discriminate|].
  apply bind_ok in H. destruct H as [[[[g1 l1] st1] ub1] [H1 H]]. eapply IH; [|exact H]. eapply fx_pass; [|exact H1]. exact HI.
Qed.

(** the times after the initial phase *)
Lemma init_times ii : forall (s s' : fim_state (N := XR)), foldM fim_init1 ii s = Ok s' ->
  forall k, times (fi_g s') k = if in_dec Z.eq_dec k ii then Some 0%R else times (fi_g s) k.
Proof.
  induction ii as [|i ii IH]; intros s s' H k; cbn [foldM] in H.
  { injection H as <-. destruct (in_dec Z.eq_dec k []) as [[]|]; reflexivity. }
  apply bind_ok in H. destruct H as [s1 [H1 H]]. rewrite (IH _ _ H k).
  unfold fim_init1 in H1. apply bind_ok in H1. destruct H1 as [g1 [G1 H1]].
  apply bind_ok in H1. destruct H1 as [g2 [G2 H1]]. apply bind_ok in H1. destruct H1 as [ns [Hns H1]].
  assert (E1 : times (fi_g s1) = times g2).
  { refine (foldM_inv_partial (fun s : fim_state (N := XR) => times (fi_g s) = times g2) _ ns _ s1 _ _ H1); [reflexivity|].
    intros sa j sb _ Ha Hb. apply bind_ok in Hb. destruct Hb as [c [Hc Hb]].
    destruct (fmstate_eqb (c_state c) OPEN && negb (isOccupied c)).
    - apply bind_ok in Hb. destruct Hb as [ga [Hg Hb]]. injection Hb as <-. cbn [fi_g]. rewrite <- Ha.
      eapply times_upd_keep; [exact Hg|reflexivity].
    - injection Hb as <-. exact Ha. }
  rewrite E1, (times_upd_keep g1 i _ g2 G2) by reflexivity.
  destruct (in_dec Z.eq_dec k ii) as [Hk|Hk]; destruct (in_dec Z.eq_dec k (i :: ii)) as [Hk'|Hk'].
  - reflexivity.
  - exfalso. apply Hk'. right; exact Hk.
  - destruct Hk' as [->|Hk']; [|contradiction]. rewrite (times_set _ k 0 g1 G1), upd_same. reflexivity.
  - eapply times_other; [exact G1|]. intros ->. apply Hk'. left; reflexivity.
Qed.

Theorem fim_run_X goal fuel g' l ub :
  fim_run fuel (XFin e : XR) goal init g0 = Ok (g', l, ub) -> FX g' l [] (fun _ => False).
Proof.
  intros H. pose proof H as Hrun. unfold fim_run in H. apply bind_ok in H. destruct H as [s [Hs H]].
  destruct (fim_init_lists dims Hp Hlt init g0 Hg0 Hsep Hrng init _ _ (PI_start init g0 Hopen) (incl_refl _) Hs) as [[HI [Hni Hfz]] [_ L]].
  eapply fx_loop; [|exact H].
  assert (Ht : forall k, times (fi_g s) k = if in_dec Z.eq_dec k init then Some 0%R else None).
  { intros k. rewrite (init_times _ _ _ Hs k). destruct (in_dec Z.eq_dec k init); [reflexivity|]. cbn [fi_g].
    unfold times, getArrivalTime. destruct (getCell g0 k) as [c|] eqn:Ec; cbn [bind]; [|reflexivity]. rewrite (Hfresh k c Ec). reflexivity. }
  constructor; auto.
  - eapply fim_init_ev; eauto.
  - intros i Hi. rewrite Ht. destruct (in_dec Z.eq_dec i init); [reflexivity|contradiction].
  - intros i Hi Hfi Hii. destruct (existsb (fun j => if in_dec Z.eq_dec j init then true else false) (nbrs dims i)) eqn:Ex.
    + apply existsb_exists in Ex. destruct Ex as [j [Hj Hin]]. destruct (in_dec Z.eq_dec j init) as [Hj2|]; [|discriminate].
      right; left. apply (L j i Hj2); [|exact Hfi]. apply adjacent_sym. apply nbrs_spec; auto.
    + left. unfold sett. rewrite Ht. destruct (in_dec Z.eq_dec i init); [contradiction|].
      intros j Hj. rewrite Ht. destruct (in_dec Z.eq_dec j init) as [Hj2|]; [|reflexivity]. exfalso.
      assert (existsb (fun j => if in_dec Z.eq_dec j init then true else false) (nbrs dims i) = true); [|congruence].
      apply existsb_exists. exists j. split; [apply nbrs_spec; auto|]. destruct (in_dec Z.eq_dec j init); [reflexivity|contradiction].
Qed.

Theorem fim_run_sub goal fuel g' ub :
  fim_run fuel (XFin e : XR) goal init g0 = Ok (g', [], ub) ->
  sub_solution dims (fun i => In i init) fr f (2 * M + e) (times g').
Proof.
  intros H. apply fim_run_X in H. destruct H as [F1 F2 F3 F4 F5]. constructor; auto.
  - intros i t ms Hi Hfi Hni Ht Hms. rewrite (minima_unique dims _ i ms Hp Hi Hms).
    destruct (F5 i Hi Hfi Hni) as [S|[[]|[[j [[] _]]|[]]]]. unfold sett in S. rewrite Ht in S. exact S.
  - intros i j Hi Hfi Hni Ht Hj.
    destruct (F5 i Hi Hfi Hni) as [S|[[]|[[k [[] _]]|[]]]]. unfold sett in S. rewrite Ht in S. auto.
Qed.

End FX.

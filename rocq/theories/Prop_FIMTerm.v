(** Prop_FIMTerm.v - property theorems C71: FIM ends. *)
From Coq Require Import Reals Lra.
From Verif Require Import Base BaseFacts Num NumXR NumLaws Grid GridFacts GridUpd GridMore Eikonal
  FMMModel SweepModel QueueModel Spec Obs EikR Solution XGrid FMMStruct FMMAbs FMMX Relax Exact Evolve Bound
  SweepX FIMX Level FIMTerm NoGoal Prop_FMM Prop_Sweep Prop_Bound Prop_FIM.
Open Scope Z_scope.

(** a cell with a finite exact time is connected by at most as many steps as there are cells below it *)
Lemma exact_connected dims init (g : grid XR) X :
  proper dims -> (forall i, free g i -> (0 < slow g i)%R) ->
  exact_solution dims (fun i => In i init) (free g) (slow g) X ->
  forall n i t, (rank (Z.to_nat (box_size dims)) X i <= n)%nat -> X i = Some t ->
  exists m, (m <= n)%nat /\ reachn dims init g m i.
Proof.
  intros Hp Hf HX. induction n as [n IH] using (well_founded_induction lt_wf). intros i t Hn Ht.
  destruct (in_dec Z.eq_dec i init) as [Hi|Hi]. { exists O. split; [lia|]. constructor; exact Hi. }
  pose proof (ex_range _ _ _ _ _ HX i t Ht) as Hir.
  destruct (ex_eq _ _ _ _ _ HX i t _ Ht Hi (dmins_spec dims X i Hp Hir)) as [Hfi HU].
  pose proof (Hf i Hfi) as Hpos.
  destruct (US_pos_has dims Hp X i t Hir) as [k [a [Hk [Ha Hlt]]]].
  { rewrite HU. nra. }
  pose proof (proj2 (adjacent_range _ _ _ Hk)) as Hkr.
  assert (Hrk : (rank (Z.to_nat (box_size dims)) X k < rank (Z.to_nat (box_size dims)) X i)%nat).
  { apply rank_lt; [lia|]. unfold tlt. rewrite Ha, Ht. destruct (Rlt_dec a t); [reflexivity|contradiction]. }
  destruct (IH (rank (Z.to_nat (box_size dims)) X k) ltac:(lia) k a (le_n _) Ha) as [m [Hm Hr]].
  exists (S m). split; [lia|]. eapply rn_step; [exact Hr|apply adjacent_sym, Hk|exact Hfi].
Qed.

Lemma exact_reached dims init (g : grid XR) X :
  exact_solution dims (fun i => In i init) (free g) (slow g) X ->
  forall i, reachable dims (fun i => In i init) (free g) i -> X i <> None.
Proof.
  intros HX i H. induction H as [i Hi|i j Hr IH Ha Hfj].
  - rewrite (ex_src _ _ _ _ _ HX i Hi). discriminate.
  - intros En. destruct (in_dec Z.eq_dec j init) as [Hj|Hj].
    + rewrite (ex_src _ _ _ _ _ HX j Hj) in En. discriminate.
    + apply IH. eapply (ex_inf _ _ _ _ _ HX j i); auto; [apply (adjacent_range _ _ _ Ha)|apply adjacent_sym, Ha].
Qed.

Lemma min_bound (l : list Z) (P : Z -> Prop) (dec : forall i, {P i} + {~ P i}) (f : Z -> R) (m : R) :
  (0 < m)%R -> (forall i, P i -> 0 < f i)%R -> exists c, (0 < c /\ c <= m /\ forall i, In i l -> P i -> c <= f i)%R.
Proof.
  intros Hm Hf. induction l as [|x l [c [H1 [H2 H3]]]]; [exists m; repeat split; [exact Hm|lra|intros i []]|].
  destruct (dec x) as [Hx|Hx].
  - exists (Rmin c (f x)). pose proof (Hf x Hx). pose proof (Rmin_l c (f x)). pose proof (Rmin_r c (f x)).
    split; [apply Rmin_glb_lt; assumption|]. split; [lra|].
    intros i [<-|Hi] Hpi; [exact H4 || lra|]. specialize (H3 i Hi Hpi). lra.
  - exists c. split; [exact H1|]. split; [exact H2|]. intros i [<-|Hi] Hpi; [contradiction|auto].
Qed.

Lemma max_bound (l : list Z) (f : Z -> R) : exists c, (0 <= c /\ forall i, In i l -> f i <= c)%R.
Proof.
  induction l as [|x l [c [H1 H3]]]; [exists 0%R; split; [lra|intros i []]|].
  exists (Rmax c (f x)). pose proof (Rmax_l c (f x)). pose proof (Rmax_r c (f x)). split; [lra|].
  intros i [<-|Hi]; [lra|]. specialize (H3 i Hi). lra.
Qed.

Lemma INR_big (x : R) : exists n, (x < INR n)%R.
Proof.
  exists (Z.to_nat (up x)). destruct (archimed x) as [H _]. destruct (Z.le_gt_cases 0 (up x)) as [L|L].
  - rewrite INR_IZR_INZ, Z2Nat.id by exact L. lra.
  - apply IZR_lt in L. pose proof (pos_INR (Z.to_nat (up x))). lra.
Qed.

(** In exact arithmetic FIM ends on every problem, whatever the tolerance (zero, the
    default, included) and the goal; more fuel changes nothing. *)
Theorem C71_fim_terminates :
  forall dims (g : grid XR) init e goal,
  exact_problem dims g init -> separated dims g init -> (0 <= e)%R ->
  exists k g' l ub, forall fuel, (k <= fuel)%nat -> fim_run fuel (XFin e : XR) goal init g = Ok (g', l, ub).
Proof.
  intros dims g init e goal HP Hs He.
  pose proof HP as [[H2 Hlt] [[Hg Hc] [Hre [Hnd Hr]]]]. pose proof (dims2_proper' _ H2) as Hp.
  assert (Hf : forall k, free g k -> (0 < slow g k)%R) by (intros k Hk; apply slow_pos; assumption).
  assert (Hv : forall k c, getCell g k = Ok c -> c_val c = XPInf) by (intros k c Hk; apply (Hc k c Hk)).
  assert (Ho : forall k c, getCell g k = Ok c -> c_state c = OPEN) by (intros k c Hk; apply (Hc k c Hk)).
  pose proof Rmargin_pos as HM.
  destruct (exact_exists dims init (free g) (slow g) Hp Hf (free_dec g) Hr) as [X HX].
  pose proof (box_size_pos _ Hp) as Hb.
  assert (Hin : forall i, free g i -> In i (zseq (Z.to_nat (box_size dims)))).
  { intros i [c [Hi _]]. apply in_zseq. rewrite Z2Nat.id by lia. destruct Hg as [Hsh Hlen]; pose proof (getCell_range _ _ _ Hi); lia. }
  destruct (min_bound (zseq (Z.to_nat (box_size dims))) (free g) (free_dec g) (slow g) (Rmargin / 2) ltac:(lra) Hf) as [gam [G1 [G2 G3]]].
  destruct (max_bound (zseq (Z.to_nat (box_size dims))) (slow g)) as [fmax [F1 F2]].
  set (B := Z.to_nat (box_size dims)).
  assert (HK : exists K, (INR (S B) * (fmax + 2 * Rmargin + e) < INR K * gam)%R).
  { destruct (INR_big ((INR (S B) * (fmax + 2 * Rmargin + e)) / gam)) as [K HK]. exists K.
    apply (Rmult_lt_compat_r gam) in HK; [|exact G1]. unfold Rdiv in HK. rewrite Rmult_assoc, Rinv_l, Rmult_1_r in HK by lra. exact HK. }
  destruct HK as [K HK].
  destruct (fim_terminates dims H2 Hlt init Hr g Hg Hre Hv Ho Hs e He X HX gam fmax K B G1 G2) with (goal := goal) as [k [[[g' l] ub] H]].
  - intros i Hi. apply G3; auto.
  - intros i Hi. apply F2; auto.
  - exact HK.
  - intros i Hi. destruct (X i) as [t|] eqn:Ex.
    + apply (exact_connected dims init g X Hp Hf HX B i t); [|exact Ex]. apply rank_le.
    + exfalso. exact (exact_reached dims init g X HX i Hi Ex).
  - exists k, g', l, ub. exact H.
Qed.
Print Assumptions C71_fim_terminates.

(** Without a goal it ends because the list of active cells is empty, and then every
    cell connected to an initial point has a time within the tolerance of the exact
    solution and every other cell has none (C55, without assuming that the run ended). *)
Theorem C71_fim_without_goal_solves :
  forall dims (g : grid XR) init e,
  exact_problem dims g init -> separated dims g init -> (0 <= e)%R ->
  exists k g' ub X, (forall fuel, (k <= fuel)%nat -> fim_run fuel (XFin e : XR) noGoal init g = Ok (g', [], ub)) /\
    exact_solution dims (fun i => In i init) (free g) (slow g) X /\
    forall i, 0 <= i < box_size dims ->
    (reachable dims (fun i => In i init) (free g) i -> exists x t, X i = Some x /\ times g' i = Some t /\
       (x <= t <= x + (2 * Rmargin + e) * IZR (box_size dims))%R) /\
    (~ reachable dims (fun i => In i init) (free g) i -> X i = None /\ times g' i = None).
Proof.
  intros dims g init e HP Hs He. destruct (C71_fim_terminates dims g init e noGoal HP Hs He) as [k [g' [l [ub H]]]].
  pose proof HP as [[H2 Hlt] [[Hg Hc] [Hre [Hnd Hr]]]]. pose proof (dims2_proper' _ H2) as Hp.
  assert (Hf : forall k, free g k -> (0 < slow g k)%R) by (intros j Hk; apply slow_pos; assumption).
  destruct (exact_exists dims init (free g) (slow g) Hp Hf (free_dec g) Hr) as [X HX].
  assert (El : l = []).
  { eapply fim_run_no_goal; [|exact (H k (le_n _))]. unfold small. destruct Hg as [_ Hlen]. pose proof (box_size_pos _ Hp). unfold noGoal. lia. }
  subst l. exists k, g', ub, X. split; [exact H|]. split; [exact HX|]. intros i Hi.
  pose proof (C55_fim_within_tolerance_of_the_solution dims g init X k e noGoal g' ub i HP Hs He HX (H k (le_n _)) Hi) as HC.
  split.
  - intros Hre'. pose proof (exact_reached dims init g X HX i Hre') as Hne. destruct (X i) as [x|]; [|congruence].
    destruct (times g' i) as [t|]; [|contradiction]. eauto.
  - intros Hnr. destruct (X i) as [x|] eqn:Ex.
    + exfalso. apply Hnr. destruct (exact_connected dims init g X Hp Hf HX _ i x (le_n _) Ex) as [m [_ Hm]].
      clear - Hm. induction Hm; [apply reach_src; assumption|eapply reach_step; eassumption].
    + destruct (times g' i); [contradiction|]. split; reflexivity.
Qed.
Print Assumptions C71_fim_without_goal_solves.

(** the hypotheses hold of a 2x2 grid with an obstacle row, where a cell is reached *)
Example C71_case : exact_problem [2;2] (tg (XPInf : XR) OPEN (XPInf : XR) OPEN) [0] /\
  separated [2;2] (tg (XPInf : XR) OPEN (XPInf : XR) OPEN) [0] /\
  reachable [2;2] (fun i => In i [0]) (free (tg (XPInf : XR) OPEN (XPInf : XR) OPEN)) 1 /\
  exists k g' ub, fim_run k (XFin 0 : XR) noGoal [0] (tg (XPInf : XR) OPEN (XPInf : XR) OPEN) = Ok (g', [], ub) /\ times g' 1 <> None.
Proof.
  destruct tg_problem as [A B]. split; [exact A|]. split; [exact B|]. destruct C36_case as [g' [H1 [H2 [H3 H4]]]]. split.
  - eapply reach_step; [apply reach_src; left; reflexivity|exact H3|exact H2].
  - exists 2%nat, g', true. split; assumption.
Qed.

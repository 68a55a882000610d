(** Prop_Travel.v - property theorems C101-C104: what a change of the map does to the
    travel times (easier maps, mirror images and rotations, units), and travel times
    as distances (routes, straight lines, the triangle inequality). *)
From Coq Require Import Reals Lra Psatz Permutation.
From Flocq Require Import Core IEEE754.BinarySingleNaN.
From Verif Require Import Base BaseFacts Num NumXR NumF64 NumLaws Grid GridFacts GridUpd GridMore Spec Obs Eikonal
  FMMModel HeapRef HeapLaws SweepModel QueueModel FMMStruct EikR Solution XGrid FMMAbs Relax Exact Evolve Bound ExactMore Examples
  FloatOps FloatUpd FloatAbs FloatGrid Prop_FMM Prop_Sweep Prop_Bound Prop_Heap Prop_Float Prop_FloatAll.
Open Scope Z_scope.

(** ** Specification (the notions of a route, of a symmetry of the box and of the
    squared distance are [route], [symmetry], [sqdist] in ExactMore.v) *)

(** what one exact-arithmetic solver may miss at a cell of a box *)
Definition xerr (dims : list Z) : R := (2 * Rmargin * IZR (box_size dims))%R.

(** every cell that can be crossed in [g] can be crossed in [g'], at least as fast *)
Definition easier (g g' : grid XR) : Prop :=
  g_leaf g' = g_leaf g /\
  forall i c, getCell g i = Ok c -> isOccupied c = false ->
    exists c' v v', getCell g' i = Ok c' /\ c_occ c = XFin v /\ c_occ c' = XFin v' /\ (v <= v')%R.

(** [phi] carries the map [g] with its initial points to [g'] *)
Definition carried (dims dims' : list Z) (phi : list Z -> list Z) {N : Num} (g g' : grid N) (init init' : list Z) : Prop :=
  g_leaf g' = g_leaf g /\
  forall cs, in_box dims cs ->
    (exists c c', getCell g (cell_number dims cs) = Ok c /\ getCell g' (cell_number dims' (phi cs)) = Ok c' /\ c_occ c' = c_occ c) /\
    (In (cell_number dims cs) init <-> In (cell_number dims' (phi cs)) init').

(** the same map in other units: spacing times [a], velocities times [b], the same obstacles *)
Definition in_units (a b : R) (g g' : grid XR) : Prop :=
  (exists h, g_leaf g = XFin h /\ g_leaf g' = XFin (a * h)) /\
  (forall i, free g i <-> free g' i) /\
  forall i c, getCell g i = Ok c -> isOccupied c = false ->
    exists c' v, getCell g' i = Ok c' /\ c_occ c = XFin v /\ c_occ c' = XFin (b * v).

(** ** from the specification to the exact solutions *)
Lemma xerr_nonneg dims : proper dims -> (0 <= xerr dims)%R.
Proof. intros Hp. unfold xerr. pose proof Rmargin_pos. pose proof (box_size_pos _ Hp) as B. assert (0 <= IZR (box_size dims))%R by (apply (IZR_le 0); lia). nra. Qed.

Lemma problem_slow dims g init : exact_problem dims g init -> forall i, free g i -> (0 < slow g i)%R.
Proof. intros [_ [_ [Hr _]]] i Hi. apply slow_pos; assumption. Qed.
Lemma problem_proper dims g init : exact_problem dims g init -> proper dims.
Proof. intros [[H _] _]. apply dims2_proper'. exact H. Qed.

Lemma free_speed (g : grid XR) i c : reals_ok g -> getCell g i = Ok c -> isOccupied c = false -> exists v, c_occ c = XFin v /\ (0 < v)%R.
Proof. intros Hr Hc Ho. destruct (free_vel g i c Hr Hc Ho) as [v Hv]. exists v. exact Hv. Qed.

Lemma faster_is_free (c c' : cell XR) v v' : isOccupied c = false -> c_occ c = XFin v -> c_occ c' = XFin v' -> (v <= v')%R -> isOccupied c' = false.
Proof.
  unfold isOccupied. intros H E E' L. rewrite E, xr_margin in H. rewrite E', xr_margin. cbn [nltb XR xltb] in *.
  apply Rltb_false in H. apply Rltb_false. lra.
Qed.

Lemma easier_slow dims dims' g g' init init' : exact_problem dims g init -> exact_problem dims' g' init' -> easier g g' ->
  forall i, free g i -> free g' i /\ (0 < slow g i)%R /\ (slow g' i <= slow g i)%R.
Proof.
  intros HP HP' [Hl He] i Hi. pose proof (problem_slow _ _ _ HP i Hi) as Hpos. destruct Hi as [c [Hc Ho]].
  destruct (He i c Hc Ho) as [c' [v [v' [Hc' [Ev [Ev' L]]]]]]. destruct HP as [_ [_ [Hr _]]].
  destruct (free_speed g i c Hr Hc Ho) as [w [Ew Hw]]. rewrite Ev in Ew. injection Ew as <-.
  split; [exists c'; split; [exact Hc'|eapply faster_is_free; eauto]|]. split; [exact Hpos|].
  unfold slow. rewrite Hl, Hc, Hc', Ev, Ev'. destruct Hr as [[h [Eh Hh]] _]. rewrite Eh.
  unfold Rdiv. apply Rmult_le_compat_l; [lra|]. apply Rinv_le_contravar; assumption.
Qed.

Lemma carried_slow dims dims' phi (g g' : grid XR) init init' : carried dims dims' phi g g' init init' ->
  forall cs, in_box dims cs -> let i := cell_number dims cs in let j := cell_number dims' (phi cs) in
     (In i init <-> In j init') /\ (free g i <-> free g' j) /\ slow g' j = slow g i.
Proof.
  intros [Hl H] cs Hcs i j. destruct (H cs Hcs) as [[c [c' [Hc [Hc' E]]]] Hin]. fold i in Hc, Hin. fold j in Hc', Hin. split; [exact Hin|]. split.
  - unfold free. rewrite Hc, Hc'. unfold isOccupied. split; intros [x [Hx Ho]]; injection Hx as <-.
    + exists c'. split; [reflexivity|]. rewrite E. exact Ho.
    + exists c. split; [reflexivity|]. rewrite <- E. exact Ho.
  - unfold slow. rewrite Hl, Hc, Hc', E. reflexivity.
Qed.

Lemma units_slow a b g g' dims init : (0 < b)%R -> exact_problem dims g init -> in_units a b g g' ->
  forall i, free g i -> slow g' i = (a / b * slow g i)%R.
Proof.
  intros Hb HP [[h [Eh Eh']] [_ H]] i [c [Hc Ho]]. destruct (H i c Hc Ho) as [c' [v [Hc' [Ev Ev']]]].
  destruct HP as [_ [_ [Hr _]]]. destruct (free_speed g i c Hr Hc Ho) as [w [Ew Hw]]. rewrite Ev in Ew. injection Ew as <-.
  unfold slow. rewrite Eh, Eh', Hc, Hc', Ev, Ev'. field. lra.
Qed.

(** the equation of a solution only looks at the free cells *)
Lemma exact_same dims (src fr fr' : Z -> Prop) f f' X : (forall i, fr i <-> fr' i) -> (forall i, fr i -> f i = f' i) ->
  exact_solution dims src fr f X -> exact_solution dims src fr' f' X.
Proof.
  intros A B [E1 E2 E3 E4 E5]. constructor; auto.
  - intros i t ms Ht Hs Hms. destruct (E2 i t ms Ht Hs Hms) as [C D]. split; [apply A; exact C|]. rewrite <- (B i C). exact D.
  - intros i j Hi Hf Hs Hn Hj. apply (E3 i j); auto. apply A. exact Hf.
Qed.

Lemma close_result dims g init T X i : exact_problem dims g init -> result_of dims g init T ->
  exact_solution dims (fun i => In i init) (free g) (slow g) X -> 0 <= i < box_size dims ->
  match X i, T i with Some x, Some t => (x <= t <= x + xerr dims)%R | None, None => True | _, _ => False end.
Proof. intros. unfold xerr. eapply C52_solvers_are_close_to_the_exact_solution; eauto. Qed.

Lemma result_run dims g init T : result_of dims g init T -> exists h, solver_run g init h /\ T = times h.
Proof.
  intros [HO HL fuel st log Hsep H|fuel ms s n incs H Hn|fuel ms s n incs H Hn|fuel th step s H]; eexists; (split; [|reflexivity]).
  - eapply sr_fmm. exact H.
  - eapply sr_fsm. exact H.
  - eapply sr_lsm. exact H.
  - eapply sr_ddqm. exact H.
Qed.

(** ** C101 *)
Theorem C101_easier_maps_are_never_slower :
  forall dims (g g' : grid XR) init init' h T' i t,
  exact_problem dims g init -> exact_problem dims g' init' ->
  easier g g' -> incl init init' ->
  solver_run g init h -> times h i = Some t -> result_of dims g' init' T' ->
  exists t', T' i = Some t' /\ (t' <= t + xerr dims)%R.
Proof.
  intros dims g g' init init' h T' i t HP HP' He Hi Hrun Ht HT'.
  destruct (C52_exact_solution_exists_and_is_unique _ _ _ HP) as [X [HX _]].
  destruct (C52_exact_solution_exists_and_is_unique _ _ _ HP') as [X' [HX' _]].
  destruct (C53_no_solver_is_below_the_exact_solution dims g init X h i t HP HX Hrun Ht) as [x [Hx Hle]].
  pose proof (problem_proper _ _ _ HP) as Hp.
  destruct (exact_mono dims Hp init init' (free g) (free g') (slow g) (slow g') X X' (problem_slow _ _ _ HP') Hi) with (i := i) (t := x) as [x' [Hx' Hle']]; auto.
  - destruct HP' as [_ [_ [_ [_ Hr]]]]. exact Hr.
  - eapply easier_slow; eauto.
  - pose proof (close_result dims g' init' T' X' i HP' HT' HX' (ex_range _ _ _ _ _ HX i x Hx)) as C. rewrite Hx' in C.
    destruct (T' i) as [t'|]; [|destruct C]. exists t'. split; [reflexivity|lra].
Qed.
Print Assumptions C101_easier_maps_are_never_slower.

(** ** C102 *)
Theorem C102_symmetric_maps_give_symmetric_times :
  forall dims dims' phi (g g' : grid XR) init init' T T' cs,
  symmetry dims dims' phi -> carried dims dims' phi g g' init init' ->
  exact_problem dims g init -> exact_problem dims' g' init' ->
  result_of dims g init T -> result_of dims' g' init' T' -> in_box dims cs ->
  match T (cell_number dims cs), T' (cell_number dims' (phi cs)) with
  | Some t, Some t' => (Rabs (t - t') <= xerr dims)%R
  | None, None => True
  | _, _ => False
  end.
Proof.
  intros dims dims' phi g g' init init' T T' cs Hsy Hca HP HP' HT HT' Hcs.
  destruct (C52_exact_solution_exists_and_is_unique _ _ _ HP) as [X [HX _]].
  destruct (C52_exact_solution_exists_and_is_unique _ _ _ HP') as [X' [HX' _]].
  pose proof (problem_proper _ _ _ HP) as Hp. pose proof (symmetry_facts dims dims' phi Hp Hsy) as F.
  assert (Hr : forall i, In i init -> 0 <= i < box_size dims) by (destruct HP as [_ [_ [_ [_ K]]]]; exact K).
  pose proof (exact_image dims dims' phi init init' (free g) (free g') (slow g) (slow g') X X' Hp Hsy (problem_slow _ _ _ HP) Hr
    (carried_slow _ _ _ _ _ _ _ Hca) HX HX' cs Hcs) as E.
  pose proof (close_result dims g init T X _ HP HT HX (cell_number_range dims cs Hcs)) as C.
  pose proof (close_result dims' g' init' T' X' _ HP' HT' HX' (cell_number_range dims' (phi cs) (sf_box _ _ _ F cs Hcs))) as C'.
  rewrite E in C'. unfold xerr in C'. rewrite (sf_size _ _ _ F) in C'. fold (xerr dims) in C'.
  destruct (X (cell_number dims cs)), (T (cell_number dims cs)), (T' (cell_number dims' (phi cs))); try contradiction; auto.
  apply Rabs_le. lra.
Qed.
Print Assumptions C102_symmetric_maps_give_symmetric_times.

(** ** C103 *)
Theorem C103_changing_units_scales_the_times :
  forall dims a b (g g' : grid XR) init T T' i,
  (0 < a)%R -> (0 < b)%R -> in_units a b g g' ->
  exact_problem dims g init -> exact_problem dims g' init ->
  result_of dims g init T -> result_of dims g' init T' -> 0 <= i < box_size dims ->
  match T i, T' i with
  | Some t, Some t' => (a / b * t - a / b * xerr dims <= t' <= a / b * t + xerr dims)%R
  | None, None => True
  | _, _ => False
  end.
Proof.
  intros dims a b g g' init T T' i Ha Hb Hu HP HP' HT HT' Hi.
  destruct (C52_exact_solution_exists_and_is_unique _ _ _ HP) as [X [HX _]].
  destruct (C52_exact_solution_exists_and_is_unique _ _ _ HP') as [X' [HX' _]].
  assert (Hc : (0 < a / b)%R) by (apply Rdiv_lt_0_compat; assumption). pose proof (problem_proper _ _ _ HP) as Hp.
  pose proof (exact_scale dims Hp (a / b) _ _ _ X Hc HX) as HS.
  assert (HS' : exact_solution dims (fun i => In i init) (free g') (slow g') (fun i => option_map (Rmult (a / b)) (X i))).
  { eapply exact_same; [| |exact HS]; [apply Hu|]. intros k Hk. symmetry. eapply units_slow; eauto. }
  pose proof (exact_unique dims init (free g') (slow g') Hp (problem_slow _ _ _ HP') X' _ HX' HS' i) as E. cbn beta in E.
  pose proof (close_result dims g init T X i HP HT HX Hi) as C.
  pose proof (close_result dims g' init T' X' i HP' HT' HX' Hi) as C'.
  rewrite E in C'. destruct (X i) as [x|], (T i) as [t|]; cbn [option_map] in C'; destruct (T' i) as [t'|]; try contradiction; auto.
  destruct C as [C1 C2]. apply (Rmult_le_compat_l (a / b)) in C1; [|lra]. apply (Rmult_le_compat_l (a / b)) in C2; [|lra]. lra.
Qed.
Print Assumptions C103_changing_units_scales_the_times.

(** ** C104 *)
Lemma in_one_dec (l : list Z) i : {In i l} + {~ In i l}.
Proof. apply in_dec, Z.eq_dec. Qed.

(** never longer than a route through free cells, from any initial point *)
Theorem C104_no_slower_than_any_route :
  forall dims (g : grid XR) init T s k l,
  exact_problem dims g init -> result_of dims g init T ->
  In s init -> route dims (free g) (slow g) s k l ->
  exists t, T k = Some t /\ (t <= l + xerr dims)%R.
Proof.
  intros dims g init T s k l HP HT Hin Hr. destruct (C52_exact_solution_exists_and_is_unique _ _ _ HP) as [X [HX _]].
  pose proof (problem_proper _ _ _ HP) as Hp.
  destruct (exact_below_route dims Hp (fun i => In i init) (free g) (slow g) X s k l (problem_slow _ _ _ HP) (in_one_dec init) HX Hr 0%R) as [x [Hx Hle]];
    [apply (ex_src _ _ _ _ _ HX s Hin)|].
  pose proof (close_result dims g init T X k HP HT HX (ex_range _ _ _ _ _ HX k x Hx)) as C. rewrite Hx in C.
  destruct (T k) as [t|]; [|destruct C]. exists t. split; [reflexivity|lra].
Qed.
Print Assumptions C104_no_slower_than_any_route.

(** never shorter than the straight line from the initial point at the top speed:
    every solver, whatever its goal and parameters *)
Theorem C104_no_faster_than_the_straight_line :
  forall dims (g : grid XR) ss h cs t spacing vmax,
  in_box dims ss -> in_box dims cs -> exact_problem dims g [cell_number dims ss] ->
  g_leaf g = XFin spacing -> (forall i c v, getCell g i = Ok c -> c_occ c = XFin v -> v <= vmax)%R -> (0 < vmax)%R ->
  solver_run g [cell_number dims ss] h -> times h (cell_number dims cs) = Some t ->
  (spacing * sqrt (sqdist cs ss) / vmax <= t)%R.
Proof.
  intros dims g ss h cs t spacing vmax Hss Hcs HP Hsp Hv Hvm Hrun Ht.
  destruct (C52_exact_solution_exists_and_is_unique _ _ _ HP) as [X [HX _]]. pose proof (problem_proper _ _ _ HP) as Hp.
  destruct (C53_no_solver_is_below_the_exact_solution dims g _ X h _ t HP HX Hrun Ht) as [x [Hx Hle]].
  pose proof HP as [_ [_ [Hr _]]]. pose proof Hr as [[h0 [Eh Hh]] _]. rewrite Hsp in Eh. injection Eh as <-.
  eapply Rle_trans; [|exact Hle].
  replace (spacing * sqrt (sqdist cs ss) / vmax)%R with (spacing / vmax * sqrt (sqdist cs ss))%R by (field; lra).
  eapply (exact_above_line dims (free g) (slow g)); eauto.
  - apply Rdiv_lt_0_compat; assumption.
  - intros i [c [Hc Ho]]. destruct (free_speed g i c Hr Hc Ho) as [v [Ev Hv0]]. unfold slow. rewrite Hsp, Hc, Ev.
    unfold Rdiv. apply Rmult_le_compat_l; [lra|]. apply Rinv_le_contravar; [exact Hv0|eauto].
Qed.
Print Assumptions C104_no_faster_than_the_straight_line.

Lemma separated_one {N : Num} dims (g : grid N) a : separated dims g [a].
Proof. intros i j [<-|[]] [<-|[]] H. exfalso. exact (adjacent_irrefl _ _ H). Qed.

(** going by way of [b] never saves time *)
Theorem C104_triangle_inequality :
  forall dims (g : grid XR) a b c Ta hab hb t1 t2,
  exact_problem dims g [a] -> exact_problem dims g [b] -> result_of dims g [a] Ta ->
  solver_run g [a] hab -> times hab b = Some t1 ->
  solver_run g [b] hb -> times hb c = Some t2 ->
  exists t, Ta c = Some t /\ (t <= t1 + t2 + xerr dims)%R.
Proof.
  intros dims g a b c Ta hab hb t1 t2 HA HB HTa Hr1 H1 Hr2 H2.
  destruct (C52_exact_solution_exists_and_is_unique _ _ _ HA) as [Xa [HXa _]].
  destruct (C52_exact_solution_exists_and_is_unique _ _ _ HB) as [Xb [HXb _]]. pose proof (problem_proper _ _ _ HA) as Hp.
  destruct (C53_no_solver_is_below_the_exact_solution dims g _ Xa hab b t1 HA HXa Hr1 H1) as [x1 [Hx1 L1]].
  destruct (C53_no_solver_is_below_the_exact_solution dims g _ Xb hb c t2 HB HXb Hr2 H2) as [x2 [Hx2 L2]].
  destruct (exact_triangle dims Hp a b (free g) (slow g) Xa Xb x1 x2 c (problem_slow _ _ _ HA)) as [x [Hx L]]; auto.
  { destruct HA as [_ [_ [_ [_ K]]]]. apply K. left. reflexivity. }
  pose proof (close_result dims g [a] Ta Xa c HA HTa HXa (ex_range _ _ _ _ _ HXa c x Hx)) as C. rewrite Hx in C.
  destruct (Ta c) as [t|]; [|destruct C]. exists t. split; [reflexivity|lra].
Qed.
Print Assumptions C104_triangle_inequality.

(** ** In IEEE doubles: the same with the relative errors of C76 and C77 *)

(** [eb] and [ea] are the relative errors of C77 for this problem, below and above *)
Definition precise (dims : list Z) (g : grid F64) (init : list Z) (eb ea : R) : Prop :=
  exists flo fhi X Xm, double_problem dims g init /\ within_resolution dims g flo fhi /\ exact_for dims g init X Xm /\
    eb = err_below dims flo fhi Xm /\ ea = err_above dims flo fhi Xm /\ (ea <= 1)%R.

(** the time stored at a cell is the real number [t] *)
Definition arrives (g : grid F64) (i : Z) (t : R) : Prop := exists d, time_is g i d /\ denotes d t.

(** a run in doubles of one of the four solvers, or of FMM* and SFMM* over any narrow band
    (quiet initial points), UFMM or GMM *)
Definition any64 (dims : list Z) (g : grid F64) (init : list Z) (goal : Z) (h : grid F64) : Prop :=
  run64 dims g init goal h \/ run64more dims g init goal h.

Definition easier64 (g g' : grid F64) : Prop :=
  forall i f, free g i -> cost g i f -> free g' i /\ exists f', cost g' i f' /\ (f' <= f)%R.

Definition in_units64 (k : R) (g g' : grid F64) : Prop :=
  (forall i, free g i <-> free g' i) /\ forall i f, free g i -> cost g i f -> cost g' i (k * f)%R.

Definition exact64 dims (g : grid F64) init (X : time_map) : Prop :=
  exact_solution dims (fun i => In i init) (free g) (slow64 g) X.

Lemma err_above_nonneg dims g flo fhi Xm : within_resolution dims g flo fhi -> (0 <= err_above dims flo fhi Xm)%R.
Proof.
  intros [Hflo _]. unfold err_above. pose proof Rmargin_pos as M. pose proof (pos_INR (length dims)) as Hn.
  assert (0 <= 3 * INR (length dims) * Rmargin / flo)%R by (apply Rmult_le_pos; [nra|left; apply Rinv_0_lt_compat; exact Hflo]).
  assert (0 <= 64 * INR (length dims) ^ 3 * ((2 * Xm + 5 * fhi) / flo) ^ 2 / 2 ^ 53)%R.
  { apply Rmult_le_pos; [|left; apply Rinv_0_lt_compat, pow_lt; lra]. apply Rmult_le_pos; [|apply pow2_ge_0]. pose proof (pow_le _ 3 Hn). lra. }
  lra.
Qed.

Lemma precise_facts dims g init eb ea : precise dims g init eb ea ->
  (0 <= ea)%R /\ proper dims /\ (forall i, In i init -> 0 <= i < box_size dims) /\ (forall i, free g i -> (0 < slow64 g i)%R /\ cost g i (slow64 g i)) /\
  (forall i f, cost g i f -> f = slow64 g i \/ ~ free g i) /\
  exists X, exact64 dims g init X /\
    (forall goal h i t, any64 dims g init goal h -> arrives h i t -> (0 <= t)%R /\ exists x, X i = Some x /\ ((1 - eb) * x <= t)%R) /\
    (forall h i, complete64 dims g init h -> 0 <= i < box_size dims ->
       match X i with
       | None => forall t, ~ arrives h i t
       | Some x => exists t, arrives h i t /\ (forall u, arrives h i u -> u = t) /\ (0 <= t)%R /\ ((1 - eb) * x <= t <= (1 + ea) * x)%R
       end).
Proof.
  intros [flo [fhi [X [Xm [HP [HW [HE [-> [-> Hk]]]]]]]]]. pose proof HP as [[H2 _] [_ [[_ Hr] _]]].
  split; [eapply err_above_nonneg; exact HW|]. split; [apply dims2_proper'; exact H2|]. split; [exact Hr|].
  split.
  { intros i Hi. pose proof (wr_bounds _ _ _ _ _ HP HW i Hi). destruct HW as [Hflo _]. split; [lra|eapply dp_cost; eauto]. }
  split.
  { intros i f Hf. destruct (free_dec g i) as [Hi|Hi]; [left|right; exact Hi]. eapply cost_unique; [exact Hf|eapply dp_cost; eauto]. }
  exists X. split; [exact (proj1 (exact_for_slow _ _ _ _ _ HP HE))|].
  assert (Hfin : forall d t, denotes d t -> d <> ninf) by (intros d t [Hd _] ->; discriminate Hd).
  assert (Hnn : forall goal h i t, any64 dims g init goal h -> arrives h i t -> (0 <= t)%R /\ exists x, X i = Some x /\ ((1 - err_below dims flo fhi Xm) * x <= t)%R).
  { intros goal h i t Hrun [d [Hd Ht]].
    assert (K : d = ninf \/ exists t x, denotes d t /\ (0 <= t)%R /\ X i = Some x /\ ((1 - err_below dims flo fhi Xm) * x <= t)%R).
    { destruct Hrun as [Hrun|Hrun]; [exact (C76_doubles_are_never_early dims g init flo fhi X Xm goal h i d HP HW HE Hrun Hd)|].
      destruct (C81_never_early_and_bounded dims g init flo fhi X Xm goal h i d HP HW HE Hrun Hd) as [E|[t' [x [Ht' [[H0 _] K]]]]]; [left; exact E|].
      right. exists t', x. auto. }
    destruct K as [E|[t' [x [Ht' [H0 [Hx Hle]]]]]].
    - exfalso. exact (Hfin d t Ht E).
    - assert (t' = t) by (destruct Ht, Ht'; congruence). subst t'. split; [exact H0|]. exists x. auto. }
  split; [exact Hnn|].
  intros h i Hrun Hi. pose proof (C77_doubles_are_accurate dims g init flo fhi X Xm h i HP HW HE Hk Hrun Hi) as A.
  assert (Huniq : forall t u, arrives h i t -> arrives h i u -> u = t).
  { intros t u [d [Hd [_ Ht]]] [e [He [_ Hu]]]. unfold time_is in Hd, He. congruence. }
  destruct (X i) as [x|].
  - destruct A as [d [t [A1 [A2 A3]]]]. assert (At : arrives h i t) by (exists d; auto). exists t. split; [exact At|]. split; [intros u Hu; eapply Huniq; eauto|].
    split; [|exact A3]. eapply Hnn; [left; eapply complete_run; exact Hrun|exact At].
  - intros t [d [Hd Ht]]. apply (Hfin d t Ht). unfold time_is in Hd, A. congruence.
Qed.

Lemma chain eb ea x x' t t' : (0 <= ea)%R -> (0 <= x')%R -> (x' <= x)%R -> (0 <= t)%R -> (0 <= t')%R ->
  ((1 - eb) * x <= t)%R -> (t' <= (1 + ea) * x')%R -> ((1 - eb) * t' <= (1 + ea) * t)%R.
Proof.
  intros A B C D E F G. destruct (Rle_dec 0 (1 - eb)) as [L|L].
  - apply Rle_trans with ((1 - eb) * ((1 + ea) * x))%R; [apply Rmult_le_compat_l; [exact L|]|].
    + eapply Rle_trans; [exact G|]. apply Rmult_le_compat_l; lra.
    + replace ((1 - eb) * ((1 + ea) * x))%R with ((1 + ea) * ((1 - eb) * x))%R by ring. apply Rmult_le_compat_l; lra.
  - assert (0 <= (1 + ea) * t)%R by (apply Rmult_le_pos; lra). assert (0 <= (eb - 1) * t')%R by (apply Rmult_le_pos; lra). lra.
Qed.

Lemma run_cell dims g init eb ea X goal h i t : precise dims g init eb ea -> exact64 dims g init X ->
  (forall goal h i t, any64 dims g init goal h -> arrives h i t -> (0 <= t)%R /\ exists x, X i = Some x /\ ((1 - eb) * x <= t)%R) ->
  any64 dims g init goal h -> arrives h i t -> exists x, X i = Some x /\ (0 <= x)%R /\ 0 <= i < box_size dims /\ (0 <= t)%R /\ ((1 - eb) * x <= t)%R.
Proof.
  intros _ HX H Hr Ha. destruct (H goal h i t Hr Ha) as [A [x [Hx B]]]. exists x. split; [exact Hx|].
  split; [exact (ex_nonneg _ _ _ _ _ HX i x Hx)|]. split; [exact (ex_range _ _ _ _ _ HX i x Hx)|]. auto.
Qed.

Lemma carried_slow64 dims dims' phi (g g' : grid F64) init init' : carried dims dims' phi g g' init init' ->
  forall cs, in_box dims cs -> let i := cell_number dims cs in let j := cell_number dims' (phi cs) in
     (In i init <-> In j init') /\ (free g i <-> free g' j) /\ slow64 g' j = slow64 g i.
Proof.
  intros [Hl H] cs Hcs i j. destruct (H cs Hcs) as [[c [c' [Hc [Hc' E]]]] Hin]. fold i in Hc, Hin. fold j in Hc', Hin. split; [exact Hin|]. split.
  - unfold free. rewrite Hc, Hc'. unfold isOccupied. split; intros [x [Hx Ho]]; injection Hx as <-.
    + exists c'. split; [reflexivity|]. rewrite E. exact Ho.
    + exists c. split; [reflexivity|]. rewrite <- E. exact Ho.
  - unfold slow64. rewrite Hl, Hc, Hc', E. reflexivity.
Qed.

Theorem C101_easier_maps_doubles :
  forall dims g g' init init' eb ea eb' ea' goal h h' i t,
  precise dims g init eb ea -> precise dims g' init' eb' ea' -> easier64 g g' -> incl init init' ->
  any64 dims g init goal h -> arrives h i t -> complete64 dims g' init' h' ->
  exists t', arrives h' i t' /\ ((1 - eb) * t' <= (1 + ea') * t)%R.
Proof.
  intros dims g g' init init' eb ea eb' ea' goal h h' i t HP HP' He Hin Hrun Ha Hrun'.
  destruct (precise_facts _ _ _ _ _ HP) as [_ [Hp [Hr [Hf [_ [X [HX [HA _]]]]]]]].
  destruct (precise_facts _ _ _ _ _ HP') as [Hea [_ [Hr' [Hf' [Hc' [X' [HX' [HA' HB']]]]]]]].
  destruct (run_cell _ _ _ _ _ X goal h i t HP HX HA Hrun Ha) as [x [Hx [Hx0 [Hi [Ht0 Hle]]]]].
  destruct (exact_mono dims Hp init init' (free g) (free g') (slow64 g) (slow64 g') X X' (fun k Hk => proj1 (Hf' k Hk)) Hin Hr') with (i := i) (t := x) as [x' [Hx' Hle']]; auto.
  { intros k Hk. destruct (Hf k Hk) as [Hf1 Hf2]. destruct (He k _ Hk Hf2) as [K1 [f' [K2 K3]]]. split; [exact K1|]. split; [exact Hf1|].
    destruct (Hc' k f' K2) as [->|K]; [exact K3|contradiction]. }
  specialize (HB' h' i Hrun' Hi). rewrite Hx' in HB'. destruct HB' as [t' [B1 [_ [B2 [_ B4]]]]]. exists t'. split; [exact B1|].
  eapply chain; [exact Hea|exact (ex_nonneg _ _ _ _ _ HX' i x' Hx')|exact Hle'|exact Ht0|exact B2|exact Hle|apply B4].
Qed.
Print Assumptions C101_easier_maps_doubles.

Theorem C102_symmetric_maps_doubles :
  forall dims dims' phi g g' init init' eb ea eb' ea' goal h h' cs t,
  symmetry dims dims' phi -> carried dims dims' phi g g' init init' ->
  precise dims g init eb ea -> precise dims' g' init' eb' ea' ->
  any64 dims g init goal h -> in_box dims cs -> arrives h (cell_number dims cs) t -> complete64 dims' g' init' h' ->
  exists t', arrives h' (cell_number dims' (phi cs)) t' /\ ((1 - eb) * t' <= (1 + ea') * t)%R.
Proof.
  intros dims dims' phi g g' init init' eb ea eb' ea' goal h h' cs t Hsy Hca HP HP' Hrun Hcs Ha Hrun'.
  destruct (precise_facts _ _ _ _ _ HP) as [_ [Hp [Hr [Hf [_ [X [HX [HA _]]]]]]]].
  destruct (precise_facts _ _ _ _ _ HP') as [Hea [_ [_ [_ [_ [X' [HX' [_ HB']]]]]]]].
  destruct (run_cell _ _ _ _ _ X goal h _ t HP HX HA Hrun Ha) as [x [Hx [Hx0 [Hi [Ht0 Hle]]]]].
  pose proof (symmetry_facts dims dims' phi Hp Hsy) as F.
  pose proof (exact_image dims dims' phi init init' (free g) (free g') (slow64 g) (slow64 g') X X' Hp Hsy (fun k Hk => proj1 (Hf k Hk)) Hr
    (carried_slow64 _ _ _ _ _ _ _ Hca) HX HX' cs Hcs) as E.
  specialize (HB' h' _ Hrun' (cell_number_range dims' (phi cs) (sf_box _ _ _ F cs Hcs))). rewrite E, Hx in HB'.
  destruct HB' as [t' [B1 [_ [B2 [_ B4]]]]]. exists t'. split; [exact B1|].
  eapply chain; [exact Hea|exact Hx0|apply Rle_refl|exact Ht0|exact B2|exact Hle|exact B4].
Qed.
Print Assumptions C102_symmetric_maps_doubles.

Theorem C103_changing_units_doubles :
  forall dims k g g' init eb ea eb' ea' goal h h' i t,
  (0 < k)%R -> in_units64 k g g' -> precise dims g init eb ea -> precise dims g' init eb' ea' ->
  (any64 dims g init goal h -> arrives h i t -> complete64 dims g' init h' ->
     exists t', arrives h' i t' /\ ((1 - eb) * t' <= (1 + ea') * (k * t))%R) /\
  (any64 dims g' init goal h' -> arrives h' i t -> complete64 dims g init h ->
     exists t', arrives h i t' /\ ((1 - eb') * (k * t') <= (1 + ea) * t)%R).
Proof.
  intros dims k g g' init eb ea eb' ea' goal h h' i t Hk [Hfr Hu] HP HP'.
  destruct (precise_facts _ _ _ _ _ HP) as [Hea [Hp [Hr [Hf [Hc [X [HX [HA HB]]]]]]]].
  destruct (precise_facts _ _ _ _ _ HP') as [Hea' [_ [_ [Hf' [Hc' [X' [HX' [HA' HB']]]]]]]].
  pose proof (exact_scale dims Hp k _ _ _ X Hk HX) as HS.
  assert (HS' : exact64 dims g' init (fun i => option_map (Rmult k) (X i))).
  { eapply exact_same; [exact Hfr| |exact HS]. intros j Hj. destruct (Hf j Hj) as [_ K]. destruct (Hc' j _ (Hu j _ Hj K)) as [K2|K2]; [exact K2|]. apply Hfr in Hj. contradiction. }
  pose proof (exact_unique dims init (free g') (slow64 g') Hp (fun j Hj => proj1 (Hf' j Hj)) X' _ HX' HS') as E. cbn beta in E. split.
  - intros Hrun Ha Hrun'. destruct (run_cell _ _ _ _ _ X goal h _ t HP HX HA Hrun Ha) as [x [Hx [Hx0 [Hi [Ht0 Hle]]]]].
    specialize (HB' h' i Hrun' Hi). rewrite E, Hx in HB'. cbn [option_map] in HB'. destruct HB' as [t' [B1 [_ [B2 [_ B4]]]]]. exists t'. split; [exact B1|].
    eapply chain; [exact Hea'| |apply Rle_refl| |exact B2| |exact B4]; try (apply Rmult_le_pos; lra).
    replace ((1 - eb) * (k * x))%R with (k * ((1 - eb) * x))%R by ring. apply Rmult_le_compat_l; lra.
  - intros Hrun' Ha Hrun. destruct (run_cell _ _ _ _ _ X' goal h' _ t HP' HX' HA' Hrun' Ha) as [x' [Hx' [Hx0 [Hi [Ht0 Hle]]]]].
    specialize (HB h i Hrun Hi). rewrite E in Hx'. destruct (X i) as [x|] eqn:Hx; [|discriminate]. cbn [option_map] in Hx'. injection Hx' as <-.
    destruct HB as [t' [B1 [_ [B2 [_ B4]]]]]. exists t'. split; [exact B1|].
    eapply chain; [exact Hea|exact Hx0|apply Rle_refl|exact Ht0|apply Rmult_le_pos; lra|exact Hle|].
    replace ((1 + ea) * (k * x))%R with (k * ((1 + ea) * x))%R by ring. apply Rmult_le_compat_l; lra.
Qed.
Print Assumptions C103_changing_units_doubles.

Theorem C104_no_slower_than_any_route_doubles :
  forall dims g init eb ea h f s k l,
  precise dims g init eb ea -> complete64 dims g init h -> (forall i, free g i -> cost g i (f i)) ->
  In s init -> route dims (free g) f s k l ->
  exists t, arrives h k t /\ (t <= (1 + ea) * l)%R.
Proof.
  intros dims g init eb ea h f s k l HP Hrun Hcost Hin Hro. destruct (precise_facts _ _ _ _ _ HP) as [Hea [Hp [Hr [Hf [Hc [X [HX [HA HB]]]]]]]].
  assert (HX' : exact_solution dims (fun i => In i init) (free g) f X).
  { eapply exact_same; [reflexivity| |exact HX]. intros j Hj. destruct (Hc j _ (Hcost j Hj)) as [E|K]; [symmetry; exact E|contradiction]. }
  assert (Hf0 : forall i, free g i -> (0 < f i)%R).
  { intros j Hj. destruct (Hc j _ (Hcost j Hj)) as [E|K]; [rewrite E; apply Hf, Hj|contradiction]. }
  destruct (exact_below_route dims Hp (fun i => In i init) (free g) f X s k l Hf0 (in_one_dec init) HX' Hro 0%R) as [x [Hx Hle]];
    [apply (ex_src _ _ _ _ _ HX s Hin)|].
  specialize (HB h k Hrun (ex_range _ _ _ _ _ HX k x Hx)). rewrite Hx in HB. destruct HB as [t [B1 [_ [B2 [_ B4]]]]]. exists t. split; [exact B1|].
  eapply Rle_trans; [exact B4|]. apply Rmult_le_compat_l; lra.
Qed.
Print Assumptions C104_no_slower_than_any_route_doubles.

Theorem C104_no_faster_than_the_straight_line_doubles :
  forall dims g ss eb ea goal h cs t fmin,
  in_box dims ss -> in_box dims cs -> precise dims g [cell_number dims ss] eb ea ->
  (forall i f, free g i -> cost g i f -> fmin <= f)%R -> (0 < fmin)%R ->
  any64 dims g [cell_number dims ss] goal h -> arrives h (cell_number dims cs) t ->
  ((1 - eb) * (fmin * sqrt (sqdist cs ss)) <= t)%R.
Proof.
  intros dims g ss eb ea goal h cs t fmin Hss Hcs HP Hfm Hf0 Hrun Ha.
  destruct (precise_facts _ _ _ _ _ HP) as [Hea [Hp [Hr [Hf [Hc [X [HX [HA HB]]]]]]]].
  destruct (run_cell _ _ _ _ _ X goal h _ t HP HX HA Hrun Ha) as [x [Hx [Hx0 [Hi [Ht0 Hle]]]]].
  assert (K : (fmin * sqrt (sqdist cs ss) <= x)%R).
  { eapply (exact_above_line dims (free g) (slow64 g)); eauto. intros i Hi'. apply (Hfm i); [exact Hi'|]. apply Hf, Hi'. }
  assert (K0 : (0 <= fmin * sqrt (sqdist cs ss))%R) by (apply Rmult_le_pos; [lra|apply sqrt_pos]).
  destruct (Rle_dec 0 (1 - eb)) as [L|L].
  - eapply Rle_trans; [apply Rmult_le_compat_l; [exact L|exact K]|exact Hle].
  - assert (0 <= (eb - 1) * (fmin * sqrt (sqdist cs ss)))%R by (apply Rmult_le_pos; [lra|exact K0]). lra.
Qed.
Print Assumptions C104_no_faster_than_the_straight_line_doubles.

Theorem C104_triangle_inequality_doubles :
  forall dims g a b c eba eaa ebb eab goal1 goal2 ha h1 h2 t1 t2,
  precise dims g [a] eba eaa -> precise dims g [b] ebb eab -> complete64 dims g [a] ha ->
  any64 dims g [a] goal1 h1 -> arrives h1 b t1 -> any64 dims g [b] goal2 h2 -> arrives h2 c t2 ->
  (eba < 1)%R -> (ebb < 1)%R ->
  exists t, arrives ha c t /\ (t <= (1 + eaa) * (t1 / (1 - eba) + t2 / (1 - ebb)))%R.
Proof.
  intros dims g a b c eba eaa ebb eab goal1 goal2 ha h1 h2 t1 t2 HPa HPb Hc1 Hr1 Ha1 Hr2 Ha2 La Lb.
  destruct (precise_facts _ _ _ _ _ HPa) as [Hea [Hp [Hr [Hf [Hc [Xa [HXa [HAa HBa]]]]]]]].
  destruct (precise_facts _ _ _ _ _ HPb) as [_ [_ [_ [_ [_ [Xb [HXb [HAb _]]]]]]]].
  destruct (run_cell _ _ _ _ _ Xa goal1 h1 _ t1 HPa HXa HAa Hr1 Ha1) as [x1 [Hx1 [Hx10 [_ [_ L1]]]]].
  destruct (run_cell _ _ _ _ _ Xb goal2 h2 _ t2 HPb HXb HAb Hr2 Ha2) as [x2 [Hx2 [Hx20 [Hi [_ L2]]]]].
  destruct (exact_triangle dims Hp a b (free g) (slow64 g) Xa Xb x1 x2 c (fun j Hj => proj1 (Hf j Hj))) as [x [Hx L]]; auto.
  { apply Hr. left. reflexivity. }
  specialize (HBa ha c Hc1 (ex_range _ _ _ _ _ HXa c x Hx)). rewrite Hx in HBa. destruct HBa as [t [B1 [_ [B2 [_ B4]]]]]. exists t. split; [exact B1|].
  eapply Rle_trans; [exact B4|]. apply Rmult_le_compat_l; [lra|]. eapply Rle_trans; [exact L|].
  apply Rplus_le_compat.
  - apply Rmult_le_reg_l with (1 - eba)%R; [lra|]. replace ((1 - eba) * (t1 / (1 - eba)))%R with t1 by (field; lra). exact L1.
  - apply Rmult_le_reg_l with (1 - ebb)%R; [lra|]. replace ((1 - ebb) * (t2 / (1 - ebb)))%R with t2 by (field; lra). exact L2.
Qed.
Print Assumptions C104_triangle_inequality_doubles.

(** ** Cases: exact arithmetic *)
Definition vmap (dims : list Z) (h : R) (vs : list R) : grid XR := vgrid dims (XFin h : XR) (map XFin vs : list XR).

Lemma vgrid_cell {N : Num} dims (leaf : N) (vs : list N) i c : getCell (vgrid dims leaf vs) i = Ok c ->
  0 <= i < Z.of_nat (length vs) /\ nth_error vs (Z.to_nat i) = Some (c_occ c).
Proof.
  intros H. unfold getCell in H. apply vget_ok in H. destruct H as [H0 H]. unfold vgrid, with_cells in H. cbn [g_cells] in H.
  rewrite nth_error_map in H. destruct (nth_error (combine (zseq (length vs)) vs) (Z.to_nat i)) as [[k v]|] eqn:E; [|discriminate].
  injection H as <-. cbn [with_occ c_occ]. 
  assert (Hv : nth_error vs (Z.to_nat i) = Some v).
  { revert E. generalize (zseq (length vs)). generalize (Z.to_nat i). clear. intros n l. revert n vs.
    induction l as [|a l IH]; intros [|n] [|b vs] E; cbn in E; try discriminate; [injection E as _ ->; reflexivity|]. apply IH in E. exact E. }
  split; [|exact Hv]. assert (K : nth_error vs (Z.to_nat i) <> None) by congruence. apply nth_error_Some in K. lia.
Qed.

Lemma vgrid_get {N : Num} dims (leaf : N) (vs : list N) i v : Z.of_nat (length vs) = box_size dims -> 0 <= i ->
  nth_error vs (Z.to_nat i) = Some v -> exists c, getCell (vgrid dims leaf vs) i = Ok c /\ c_occ c = v.
Proof.
  intros Hl Hi Hv. assert (K : nth_error vs (Z.to_nat i) <> None) by congruence. apply nth_error_Some in K.
  destruct (getCell_in dims (vgrid dims leaf vs) i (proj1 (vgrid_clean dims leaf vs Hl)) ltac:(lia)) as [c Hc]. exists c. split; [exact Hc|].
  apply vgrid_cell in Hc. destruct Hc as [_ Hc]. congruence.
Qed.

Lemma vmap_problem dims h vs init : shape_ok dims -> Z.of_nat (length vs) = box_size dims -> (0 < h)%R -> points_ok dims init ->
  exact_problem dims (vmap dims h vs) init.
Proof.
  intros Hs Hl Hh Hp. split; [exact Hs|]. split; [apply vgrid_clean; rewrite map_length; exact Hl|]. split; [|exact Hp]. split.
  - exists h. split; [reflexivity|exact Hh].
  - intros i c Hc. apply vgrid_cell in Hc. destruct Hc as [_ Hc]. rewrite nth_error_map in Hc.
    destruct (nth_error vs (Z.to_nat i)) as [v|]; [|discriminate]. exists v. cbn in Hc. congruence.
Qed.

Lemma vmap_run dims g init : exact_problem dims g init -> separated dims g init -> exists h, solver_run g init h /\ result_of dims g init (times h).
Proof.
  intros HP Hs. destruct (proj1 (C34_all_solvers_have_a_result _ _ _ HP) Hs) as [st [log [fuel H]]].
  exists (fs_g st). split; [eapply sr_fmm; exact H|]. eapply (res_fmm _ _ _ RefHeap (RefHeap_laws XR_laws)); [exact Hs|exact H].
Qed.

Lemma shape23 : shape_ok [2;3]. Proof. split; [repeat (constructor; [lia|]); constructor|cbn; lia]. Qed.
Lemma shape32 : shape_ok [3;2]. Proof. split; [repeat (constructor; [lia|]); constructor|cbn; lia]. Qed.
Lemma one_point dims i : 0 <= i < box_size dims -> points_ok dims [i].
Proof. intros H. split; [repeat constructor; intros []|]. intros j [<-|[]]. exact H. Qed.

Ltac six i := assert (Hsix : i = 0 \/ i = 1 \/ i = 2 \/ i = 3 \/ i = 4 \/ i = 5) by lia; destruct Hsix as [-> |[-> |[-> |[-> |[-> | ->]]]]].

(** a 2x3 map whose obstacle at cell 2 is removed, with a faster cell 3 and a second initial point *)
Definition t_hard : grid XR := vmap [2;3] 1 [1;1;0;1;1;1]%R.
Definition t_easy : grid XR := vmap [2;3] 1 [1;1;1;2;1;1]%R.
Example C101_case :
  exact_problem [2;3] t_hard [0] /\ exact_problem [2;3] t_easy [0;5] /\ separated [2;3] t_easy [0;5] /\
  easier t_hard t_easy /\ incl [0] [0;5] /\
  (exists h, solver_run t_hard [0] h) /\ (exists T', result_of [2;3] t_easy [0;5] T').
Proof.
  assert (P1 : exact_problem [2;3] t_hard [0]) by (apply vmap_problem; [exact shape23|reflexivity|lra|apply one_point; cbn; lia]).
  assert (P2 : exact_problem [2;3] t_easy [0;5]).
  { apply vmap_problem; [exact shape23|reflexivity|lra|]. split; [repeat constructor; cbn; intuition lia|]. intros i [<-|[<-|[]]]; cbn; lia. }
  assert (S2 : separated [2;3] t_easy [0;5]).
  { intros i j Hi Hj Ha. exfalso. assert (Hp : proper [2;3]) by (repeat constructor; lia).
    assert (Hin : In j (nbrs [2;3] i)) by (apply nbrs_spec; [exact Hp|apply (adjacent_range _ _ _ Ha)|exact Ha]).
    destruct Hi as [<-|[<-|[]]]; cbn in Hin; destruct Hj as [<-|[<-|[]]]; lia. }
  split; [exact P1|]. split; [exact P2|]. split; [exact S2|]. split; [|split; [intros x [<-|[]]; left; reflexivity|split]].
  - split; [reflexivity|]. intros i c Hc Ho. apply vgrid_cell in Hc. destruct Hc as [Hi Hc]. cbn [length map] in Hi.
    assert (Hi6 : 0 <= i < 6) by lia. clear Hi.
    six i; cbn in Hc; injection Hc as Hc; symmetry in Hc;
      match goal with |- context [getCell t_easy ?k] =>
        destruct (vgrid_get [2;3] (XFin 1 : XR) (map XFin [1;1;1;2;1;1]%R : list XR) k _ eq_refl ltac:(lia) eq_refl) as [c' [Hc' Hv']] end;
      (eexists c', _, _; split; [exact Hc'|]; split; [exact Hc|]; split; [exact Hv'|lra]).
  - destruct (vmap_run _ _ _ P1 (separated_one _ _ _)) as [h [H _]]. exists h. exact H.
  - destruct (vmap_run _ _ _ P2 S2) as [h [_ H]]. eauto.
Qed.

(** a 2x3 map turned by 90 degrees *)
Definition t_map : grid XR := vmap [2;3] 1 [1;2;3;4;0;5]%R.
Definition t_turned : grid XR := vmap [3;2] 1 [0;3;1;5;4;2]%R.
Definition turn : list Z -> list Z := fun c => mirror 0 [3;2] (exchange 0 c).
Example C102_case :
  symmetry [2;3] [3;2] turn /\ carried [2;3] [3;2] turn t_map t_turned [0] [2] /\
  exact_problem [2;3] t_map [0] /\ separated [2;3] t_map [0] /\ exact_problem [3;2] t_turned [2] /\ separated [3;2] t_turned [2] /\
  turn [1;2] = [0;1] /\
  (exists T, result_of [2;3] t_map [0] T) /\ (exists T', result_of [3;2] t_turned [2] T').
Proof.
  assert (P1 : exact_problem [2;3] t_map [0]) by (apply vmap_problem; [exact shape23|reflexivity|lra|apply one_point; cbn; lia]).
  assert (P2 : exact_problem [3;2] t_turned [2]) by (apply vmap_problem; [exact shape32|reflexivity|lra|apply one_point; cbn; lia]).
  split; [|split; [|split; [exact P1|]; split; [apply separated_one|]; split; [exact P2|]; split; [apply separated_one|]; split; [reflexivity|]; split]].
  - unfold turn. apply (sym_mirror [2;3] 0 [3;2] (fun c => exchange 0 c)). apply (sym_exchange [2;3] 0 [2;3] (fun c => c)); [constructor|cbn; lia].
  - split; [reflexivity|]. intros cs Hcs. inversion Hcs as [|? x ? r Hx Hr]; subst. inversion Hr as [|? y ? r' Hy Hr']; subst. inversion Hr'; subst.
    assert (Hx2 : x = 0 \/ x = 1) by lia. assert (Hy3 : y = 0 \/ y = 1 \/ y = 2) by lia.
    destruct Hx2 as [-> | ->]; destruct Hy3 as [-> |[-> | ->]]; (split; [|cbn; lia]);
    match goal with |- exists c c', getCell t_map ?i = _ /\ getCell t_turned ?j = _ /\ _ =>
      destruct (vgrid_get [2;3] (XFin 1 : XR) (map XFin [1;2;3;4;0;5]%R : list XR) i _ eq_refl ltac:(cbn; lia) eq_refl) as [c [Hc Hv]];
      destruct (vgrid_get [3;2] (XFin 1 : XR) (map XFin [0;3;1;5;4;2]%R : list XR) j _ eq_refl ltac:(cbn; lia) eq_refl) as [c' [Hc' Hv']] end;
    (exists c, c'; split; [exact Hc|]; split; [exact Hc'|congruence]).
  - destruct (vmap_run _ _ _ P1 (separated_one _ _ _)) as [h [_ H]]. eauto.
  - destruct (vmap_run _ _ _ P2 (separated_one _ _ _)) as [h [_ H]]. eauto.
Qed.

(** spacing doubled, velocities times four *)
Definition t_units : grid XR := vmap [2;3] 2 [4;8;12;16;0;20]%R.
Example C103_case :
  in_units 2 4 t_map t_units /\ exact_problem [2;3] t_map [0] /\ separated [2;3] t_map [0] /\
  exact_problem [2;3] t_units [0] /\ separated [2;3] t_units [0] /\
  (exists T, result_of [2;3] t_map [0] T) /\ (exists T', result_of [2;3] t_units [0] T').
Proof.
  assert (P1 : exact_problem [2;3] t_map [0]) by (apply vmap_problem; [exact shape23|reflexivity|lra|apply one_point; cbn; lia]).
  assert (P2 : exact_problem [2;3] t_units [0]) by (apply vmap_problem; [exact shape23|reflexivity|lra|apply one_point; cbn; lia]).
  assert (G : forall i c, getCell t_map i = Ok c -> exists c' v, getCell t_units i = Ok c' /\ c_occ c = XFin v /\ c_occ c' = XFin (4 * v) /\ (v = 0 \/ 1 <= v)%R).
  { intros i c Hc. apply vgrid_cell in Hc. destruct Hc as [Hi Hc]. cbn [length map] in Hi.
    assert (Hi6 : 0 <= i < 6) by lia. clear Hi.
    six i; cbn in Hc; injection Hc as Hc; symmetry in Hc;
      match goal with |- context [getCell t_units ?k] =>
        destruct (vgrid_get [2;3] (XFin 2 : XR) (map XFin [4;8;12;16;0;20]%R : list XR) k _ eq_refl ltac:(lia) eq_refl) as [c' [Hc' Hv']] end;
      (eexists c', _; split; [exact Hc'|]; split; [exact Hc|]; split; [rewrite Hv'; f_equal; lra|lra]). }
  assert (Hm : (0 < Rmargin < 1)%R) by (unfold Rmargin; lra).
  split; [|split; [exact P1|]; split; [apply separated_one|]; split; [exact P2|]; split; [apply separated_one|]; split].
  - split; [exists 1%R; split; [reflexivity|unfold t_units, vmap; cbn; f_equal; lra]|]. split.
    + intros i. split; intros [c [Hc Ho]].
      * destruct (G i c Hc) as [c' [v [Hc' [Ev [Ev' Hv]]]]]. exists c'. split; [exact Hc'|]. unfold isOccupied in *. rewrite Ev, xr_margin in Ho. rewrite Ev', xr_margin.
        cbn [nltb XR xltb] in *. apply Rltb_false in Ho. apply Rltb_false. lra.
      * assert (Hr : 0 <= i < 6) by (apply vgrid_cell in Hc; cbn in Hc; lia).
        destruct (getCell_in [2;3] t_map i (proj1 (proj1 (proj2 P1))) Hr) as [c0 Hc0]. exists c0. split; [exact Hc0|].
        destruct (G i c0 Hc0) as [c' [v [Hc' [Ev [Ev' Hv]]]]]. assert (c' = c) by congruence. subst c'. unfold isOccupied in *. rewrite Ev', xr_margin in Ho. rewrite Ev, xr_margin.
        cbn [nltb XR xltb] in *. apply Rltb_false in Ho. apply Rltb_false. lra.
    + intros i c Hc _. destruct (G i c Hc) as [c' [v [Hc' [Ev [Ev' _]]]]]. eauto 10.
  - destruct (vmap_run _ _ _ P1 (separated_one _ _ _)) as [h [_ H]]. eauto.
  - destruct (vmap_run _ _ _ P2 (separated_one _ _ _)) as [h [_ H]]. eauto.
Qed.

(** a route of three steps (right, up, up), the opposite corner, and a stop on the way *)
Example C104_case :
  exact_problem [2;3] t_hard [0] /\ separated [2;3] t_hard [0] /\ exact_problem [2;3] t_hard [1] /\
  (exists l, route [2;3] (free t_hard) (slow t_hard) 0 5 l /\ (l = 3)%R) /\
  (forall i c v, getCell t_hard i = Ok c -> c_occ c = XFin v -> v <= 1)%R /\
  sqdist [1;2] [0;0] = 5%R /\
  (exists h, solver_run t_hard [0] h /\ result_of [2;3] t_hard [0] (times h) /\
     (exists t1, times h 1 = Some t1) /\ exists h', solver_run t_hard [1] h' /\ exists t2, times h' 5 = Some t2).
Proof.
  assert (P1 : exact_problem [2;3] t_hard [0]) by (apply vmap_problem; [exact shape23|reflexivity|lra|apply one_point; cbn; lia]).
  assert (P2 : exact_problem [2;3] t_hard [1]) by (apply vmap_problem; [exact shape23|reflexivity|lra|apply one_point; cbn; lia]).
  assert (Hm : (0 < Rmargin < 1)%R) by (unfold Rmargin; lra).
  assert (Hp : proper [2;3]) by (repeat constructor; lia).
  assert (Fr : forall i, 0 <= i -> nth_error [1;1;0;1;1;1]%R (Z.to_nat i) = Some 1%R -> free t_hard i /\ slow t_hard i = 1%R).
  { intros i Hi Hv. destruct (vgrid_get [2;3] (XFin 1 : XR) (map XFin [1;1;0;1;1;1]%R : list XR) i (XFin 1) eq_refl Hi) as [c [Hc Ev]]; [rewrite nth_error_map, Hv; reflexivity|].
    split.
    - exists c. split; [exact Hc|]. unfold isOccupied. rewrite Ev, xr_margin. cbn [nltb XR xltb]. apply Rltb_false. lra.
    - change (getCell t_hard i = Ok c) in Hc. unfold slow. change (g_leaf t_hard) with (XFin 1 : XR). rewrite Hc, Ev. cbn. field. }
  destruct (Fr 1 ltac:(lia) eq_refl) as [F1 S1]. destruct (Fr 3 ltac:(lia) eq_refl) as [F3 S3]. destruct (Fr 5 ltac:(lia) eq_refl) as [F5 S5].
  assert (A : forall i j, 0 <= i < 6 -> In j (nbrs [2;3] i) -> adjacent [2;3] i j) by (intros i j Hi Hj; apply (nbrs_spec [2;3] i j Hp); [exact Hi|exact Hj]).
  assert (R1 : route [2;3] (free t_hard) (slow t_hard) 0 1 (0 + slow t_hard 1)) by (eapply route_step; [apply route_stay|apply A; [lia|cbn; auto]|exact F1]).
  assert (R2 : route [2;3] (free t_hard) (slow t_hard) 1 5 (0 + slow t_hard 3 + slow t_hard 5)).
  { eapply route_step; [eapply route_step; [apply route_stay|apply A; [lia|cbn; auto]|exact F3]|apply A; [lia|cbn; auto]|exact F5]. }
  assert (R3 : route [2;3] (free t_hard) (slow t_hard) 0 5 (0 + slow t_hard 1 + slow t_hard 3 + slow t_hard 5)).
  { eapply route_step; [eapply route_step; [exact R1|apply A; [lia|cbn; auto]|exact F3]|apply A; [lia|cbn; auto]|exact F5]. }
  split; [exact P1|]. split; [apply separated_one|]. split; [exact P2|]. split; [|split; [|split; [|]]].
  - eexists. split; [exact R3|]. rewrite S1, S3, S5. lra.
  - intros i c v Hc Hv. apply vgrid_cell in Hc. destruct Hc as [Hi Hc]. cbn [length map] in Hi. rewrite Hv in Hc.
    assert (Hi6 : 0 <= i < 6) by lia. clear Hi. six i; cbn in Hc; injection Hc as <-; lra.
  - cbn [sqdist]. lra.
  - destruct (vmap_run _ _ _ P1 (separated_one _ _ _)) as [h [H1 H2]]. exists h. split; [exact H1|]. split; [exact H2|]. split.
    + destruct (C104_no_slower_than_any_route _ _ _ _ 0 1 _ P1 H2 (or_introl eq_refl) R1) as [t [Ht _]]. eauto.
    + destruct (vmap_run _ _ _ P2 (separated_one _ _ _)) as [h' [H1' H2']]. exists h'. split; [exact H1'|].
      destruct (C104_no_slower_than_any_route _ _ _ _ 1 5 _ P2 H2' (or_introl eq_refl) R2) as [t [Ht _]]. eauto.
Qed.

(** ** Cases: doubles *)
Definition dmap (vs : list Z) : grid F64 := vgrid [3;3] (n1 : F64) (map z64 vs).
Definition speeds (vs : list Z) : Prop := length vs = 9%nat /\ Forall (fun v => v = 0 \/ 1 <= v <= 4) vs.

Lemma dmap_precise vs init : speeds vs -> points_ok [3;3] init ->
  precise [3;3] (dmap vs) init (err_below [3;3] (1/4) 1 9) (err_above [3;3] (1/4) 1 9).
Proof.
  intros [Hl Hv] Hpt. rewrite Forall_forall in Hv.
  assert (Hocc : forall i c, getCell (dmap vs) i = Ok c -> isOccupied c = false -> exists z, c_occ c = z64 z /\ 1 <= z <= 4).
  { intros i c Hc Ho. apply vgrid_cell in Hc. destruct Hc as [_ Hc]. rewrite nth_error_map in Hc.
    destruct (nth_error vs (Z.to_nat i)) as [z|] eqn:E; [|discriminate]. cbn [option_map] in Hc. injection Hc as Hc. exists z. split; [congruence|].
    destruct (Hv z (nth_error_In _ _ E)) as [->|K]; [|exact K]. exfalso. unfold isOccupied in Ho. rewrite <- Hc in Ho. vm_compute in Ho. discriminate. }
  assert (Hsh : shape_ok [3;3]) by (split; [repeat constructor; lia|cbn; lia]).
  assert (HP : double_problem [3;3] (dmap vs) init).
  { split; [exact Hsh|]. split; [apply vgrid_clean; rewrite map_length, Hl; reflexivity|]. split; [exact Hpt|].
    pose proof pow200_big as B. assert (B' : (/ 2 ^ 200 <= 1)%R).
    { rewrite <- Rinv_1. apply Rinv_le_contravar; lra. }
    split.
    - exists 1%R. split; [exact (denotes_Z 1 ltac:(lia))|lra].
    - intros i c Hc Ho. destruct (Hocc i c Hc Ho) as [z [-> Hz]]. exists (IZR z). split; [apply denotes_Z; lia|].
      destruct Hz as [Z1 Z2]. apply IZR_le in Z1, Z2. lra. }
  assert (HW : within_resolution [3;3] (dmap vs) (1/4) 1).
  { split; [lra|]. split; [lra|]. split.
    - intros i f [c0 [Hc0 Ho]] [c [h [v [Hc [[_ Hh] [[_ Hv'] ->]]]]]]. assert (c0 = c) by congruence. subst c0.
      destruct (Hocc i c Hc Ho) as [z [E Hz]]. rewrite E in Hv'. rewrite (proj2 (denotes_Z z ltac:(lia))) in Hv'.
      change (g_leaf (dmap vs)) with (z64 1) in Hh. rewrite (proj2 (denotes_Z 1 ltac:(lia))) in Hh. subst h v.
      destruct Hz as [Z1 Z2]. apply IZR_le in Z1, Z2. unfold Rdiv. rewrite !Rmult_1_l. split; [|rewrite <- Rinv_1]; apply Rinv_le_contravar; lra.
    - change (box_size [3;3]) with 9. cbn [length INR]. lra. }
  destruct (C76_exact_solution_exists _ _ _ _ _ HP HW) as [X HX].
  replace (1 * IZR (box_size [3;3]%Z))%R with 9%R in HX by (cbn; lra).
  exists (1/4)%R, 1%R, X, 9%R. split; [exact HP|]. split; [exact HW|]. split; [exact HX|]. split; [reflexivity|]. split; [reflexivity|].
  destruct C77_case as [_ [_ [_ [_ [_ [K _]]]]]]. lra.
Qed.

Lemma dmap_run vs init : speeds vs -> points_ok [3;3] init -> separated [3;3] (dmap vs) init ->
  exists h, complete64 [3;3] (dmap vs) init h /\ any64 [3;3] (dmap vs) init noGoal h.
Proof.
  intros Hv Hpt Hs. destruct (dmap_precise vs init Hv Hpt) as [flo [fhi [X [Xm [HP [HW _]]]]]].
  destruct (proj1 (C77_all_solvers_have_a_result RefHeap (RefHeap_laws F64_laws) _ _ _ _ _ (z64 0) (z64 1) HP HW) Hs) as [st [log [fuel H]]].
  assert (C : complete64 [3;3] (dmap vs) init (fs_g st)) by (eapply (c64_fmm _ _ _ RefHeap (RefHeap_laws F64_laws)); eauto).
  exists (fs_g st). split; [exact C|]. left. apply complete_run. exact C.
Qed.

Lemma dmap_cell vs i c : getCell (dmap vs) i = Ok c -> 0 <= i < Z.of_nat (length vs) /\ exists z, nth_error vs (Z.to_nat i) = Some z /\ c_occ c = z64 z.
Proof.
  intros Hc. apply vgrid_cell in Hc. rewrite map_length, nth_error_map in Hc. destruct Hc as [Hi Hc]. split; [exact Hi|].
  destruct (nth_error vs (Z.to_nat i)) as [z|]; [|discriminate]. exists z. split; [reflexivity|]. cbn [option_map] in Hc. injection Hc as Hc. symmetry. exact Hc.
Qed.
Lemma dmap_get vs i z : length vs = 9%nat -> 0 <= i -> nth_error vs (Z.to_nat i) = Some z -> exists c, getCell (dmap vs) i = Ok c /\ c_occ c = z64 z.
Proof.
  intros Hl Hi Hz. apply (vgrid_get [3;3]); [rewrite map_length, Hl; reflexivity|exact Hi|]. rewrite nth_error_map, Hz. reflexivity.
Qed.

Ltac nine i := assert (Hnine : i = 0 \/ i = 1 \/ i = 2 \/ i = 3 \/ i = 4 \/ i = 5 \/ i = 6 \/ i = 7 \/ i = 8) by lia;
  destruct Hnine as [-> |[-> |[-> |[-> |[-> |[-> |[-> |[-> | ->]]]]]]]].

Definition d_map : list Z := [1;1;2;1;0;2;1;1;1].
Definition d_easy : list Z := [1;2;2;1;1;4;1;1;1].
Definition d_mirror : list Z := [2;1;1;2;0;1;1;1;1].
Definition d_units : list Z := [2;2;4;2;0;4;2;2;2].

Lemma dmap_free vs i z : length vs = 9%nat -> speeds vs -> 0 <= i -> nth_error vs (Z.to_nat i) = Some z -> (free (dmap vs) i <-> 1 <= z).
Proof.
  intros Hl [_ Hs] Hi Hz. destruct (dmap_get vs i z Hl Hi Hz) as [c [Hc Ev]]. rewrite Forall_forall in Hs. pose proof (Hs z (nth_error_In _ _ Hz)) as K. unfold free. rewrite Hc. unfold isOccupied. split.
  - intros [c' [H Ho]]. injection H as <-. destruct K as [->|K]; [|lia]. exfalso. rewrite Ev in Ho. vm_compute in Ho. discriminate.
  - intros H. exists c. split; [reflexivity|]. rewrite Ev. destruct K as [->|K]; [lia|].
    assert (K4 : z = 1 \/ z = 2 \/ z = 3 \/ z = 4) by lia. destruct K4 as [->|[->|[->| ->]]]; vm_compute; reflexivity.
Qed.
Lemma dmap_cost vs i z f : length vs = 9%nat -> 0 <= i -> Z.abs z <= 9007199254740992 -> nth_error vs (Z.to_nat i) = Some z -> (cost (dmap vs) i f <-> f = (1 / IZR z)%R).
Proof.
  intros Hl Hi Hz9 Hz. destruct (dmap_get vs i z Hl Hi Hz) as [c [Hc Ev]]. split.
  - intros [c' [h [v [Hc' [[_ Hh] [[_ Hv] ->]]]]]]. assert (c' = c) by congruence. subst c'. rewrite Ev in Hv. rewrite (proj2 (denotes_Z z Hz9)) in Hv.
    change (g_leaf (dmap vs)) with (z64 1) in Hh. rewrite (proj2 (denotes_Z 1 ltac:(lia))) in Hh. subst h v. reflexivity.
  - intros ->. exists c, 1%R, (IZR z). split; [exact Hc|]. split; [exact (denotes_Z 1 ltac:(lia))|]. split; [rewrite Ev; apply denotes_Z; exact Hz9|reflexivity].
Qed.

Ltac solve_speeds := split; [reflexivity|repeat constructor; lia].
Lemma corner : points_ok [3;3] [0]. Proof. apply one_point. cbn. lia. Qed.

Lemma dmap_range vs i : speeds vs -> free (dmap vs) i -> 0 <= i < 9.
Proof. intros [Hl _] [c [Hc _]]. apply dmap_cell in Hc. rewrite Hl in Hc. lia. Qed.

Example C101_case_doubles :
  precise [3;3] (dmap d_map) [0] (err_below [3;3] (1/4) 1 9) (err_above [3;3] (1/4) 1 9) /\
  precise [3;3] (dmap d_easy) [0] (err_below [3;3] (1/4) 1 9) (err_above [3;3] (1/4) 1 9) /\
  (0 <= err_below ([3;3])%Z (1/4) 1 9 <= / 10 ^ 9)%R /\ (err_above ([3;3])%Z (1/4) 1 9 <= / 10 ^ 8)%R /\
  easier64 (dmap d_map) (dmap d_easy) /\
  (exists h, any64 [3;3] (dmap d_map) [0] noGoal h /\ exists t, arrives h 8 t) /\ exists h', complete64 [3;3] (dmap d_easy) [0] h'.
Proof.
  assert (S1 : speeds d_map) by solve_speeds. assert (S2 : speeds d_easy) by solve_speeds.
  split; [apply dmap_precise; [exact S1|exact corner]|]. split; [apply dmap_precise; [exact S2|exact corner]|].
  split; [apply C77_case|]. split; [apply C77_case|]. split; [|split].
  - intros i f Hi Hf. pose proof (dmap_range _ i S1 Hi) as Hr. nine i;
      match goal with H : free (dmap d_map) ?k |- _ =>
        match eval vm_compute in (nth_error d_map (Z.to_nat k), nth_error d_easy (Z.to_nat k)) with (Some ?z, Some ?z') =>
          pose proof (proj1 (dmap_free d_map k z eq_refl S1 ltac:(lia) eq_refl) H) as Hz;
          pose proof (proj1 (dmap_cost d_map k z f eq_refl ltac:(lia) ltac:(lia) eq_refl) Hf) as Ef;
          first [exfalso; lia | split; [apply (dmap_free d_easy k z' eq_refl S2 ltac:(lia) eq_refl); lia|];
          exists (1 / IZR z')%R; split; [apply (dmap_cost d_easy k z' _ eq_refl ltac:(lia) ltac:(lia) eq_refl); reflexivity|rewrite Ef; lra]] end end.
  - destruct (dmap_run d_map [0] S1 corner (separated_one _ _ _)) as [h [H1 H2]]. exists h. split; [exact H2|].
    assert (P : precise [3;3] (dmap d_map) [0] (err_below [3;3] (1/4) 1 9) (err_above [3;3] (1/4) 1 9)) by (apply dmap_precise; [exact S1|exact corner]).
    assert (Hp : proper [3;3]) by (repeat constructor; lia).
    assert (A : forall i j, 0 <= i < 9 -> In j (nbrs [3;3] i) -> adjacent [3;3] i j) by (intros i j Hi Hj; apply (nbrs_spec [3;3] i j Hp); [exact Hi|exact Hj]).
    assert (F : forall k, 0 <= k -> nth_error d_map (Z.to_nat k) = Some 1 \/ nth_error d_map (Z.to_nat k) = Some 2 -> free (dmap d_map) k).
    { intros k Hk [E|E]; (apply (dmap_free d_map k _ eq_refl S1 Hk E); lia). }
    destruct (C104_no_slower_than_any_route_doubles [3;3] (dmap d_map) [0] _ _ h (slow64 (dmap d_map)) 0 8
      (0 + slow64 (dmap d_map) 3 + slow64 (dmap d_map) 6 + slow64 (dmap d_map) 7 + slow64 (dmap d_map) 8) P H1) as [t [Ht _]].
    + destruct (precise_facts _ _ _ _ _ P) as [_ [_ [_ [Hf _]]]]. intros i Hi. apply Hf, Hi.
    + left. reflexivity.
    + repeat (first [apply route_stay | eapply route_step]); first [apply A; [lia|cbn; auto 6]|apply F; [lia|cbn; auto]].
    + eauto.
  - destruct (dmap_run d_easy [0] S2 corner (separated_one _ _ _)) as [h [H1 H2]]. eauto.
Qed.

Example C102_case_doubles :
  symmetry [3;3] [3;3] (fun c => mirror 0 [3;3] c) /\
  carried [3;3] [3;3] (fun c => mirror 0 [3;3] c) (dmap d_map) (dmap d_mirror) [0] [2] /\
  precise [3;3] (dmap d_map) [0] (err_below [3;3] (1/4) 1 9) (err_above [3;3] (1/4) 1 9) /\
  precise [3;3] (dmap d_mirror) [2] (err_below [3;3] (1/4) 1 9) (err_above [3;3] (1/4) 1 9) /\
  (exists h, any64 [3;3] (dmap d_map) [0] noGoal h) /\ exists h', complete64 [3;3] (dmap d_mirror) [2] h'.
Proof.
  assert (S1 : speeds d_map) by solve_speeds. assert (S2 : speeds d_mirror) by solve_speeds.
  assert (P2 : points_ok [3;3] [2]) by (apply one_point; cbn; lia).
  split; [apply (sym_mirror [3;3] 0 [3;3] (fun c => c)), sym_same|]. split; [|split; [apply dmap_precise; [exact S1|exact corner]|split; [apply dmap_precise; [exact S2|exact P2]|split]]].
  - split; [reflexivity|]. intros cs Hcs. inversion Hcs as [|? x ? r Hx Hr]; subst. inversion Hr as [|? y ? r' Hy Hr']; subst. inversion Hr'; subst.
    assert (Hx3 : x = 0 \/ x = 1 \/ x = 2) by lia. assert (Hy3 : y = 0 \/ y = 1 \/ y = 2) by lia.
    destruct Hx3 as [-> |[-> | ->]]; destruct Hy3 as [-> |[-> | ->]]; (split; [|cbn; lia]);
    match goal with |- exists c c', getCell (dmap d_map) ?i = _ /\ getCell (dmap d_mirror) ?j = _ /\ _ =>
      destruct (dmap_get d_map i _ eq_refl ltac:(cbn; lia) eq_refl) as [c [Hc Hv]];
      destruct (dmap_get d_mirror j _ eq_refl ltac:(cbn; lia) eq_refl) as [c' [Hc' Hv']] end;
    (exists c, c'; split; [exact Hc|]; split; [exact Hc'|congruence]).
  - destruct (dmap_run d_map [0] S1 corner (separated_one _ _ _)) as [h [H1 H2]]. eauto.
  - destruct (dmap_run d_mirror [2] S2 P2 (separated_one _ _ _)) as [h [H1 H2]]. eauto.
Qed.

Example C103_case_doubles :
  in_units64 (1/2) (dmap d_map) (dmap d_units) /\
  precise [3;3] (dmap d_map) [0] (err_below [3;3] (1/4) 1 9) (err_above [3;3] (1/4) 1 9) /\
  precise [3;3] (dmap d_units) [0] (err_below [3;3] (1/4) 1 9) (err_above [3;3] (1/4) 1 9) /\
  (exists h, complete64 [3;3] (dmap d_map) [0] h) /\ exists h', complete64 [3;3] (dmap d_units) [0] h'.
Proof.
  assert (S1 : speeds d_map) by solve_speeds. assert (S2 : speeds d_units) by solve_speeds.
  split; [|split; [apply dmap_precise; [exact S1|exact corner]|split; [apply dmap_precise; [exact S2|exact corner]|split]]].
  - assert (K : forall i, 0 <= i < 9 -> exists z, nth_error d_map (Z.to_nat i) = Some z /\ nth_error d_units (Z.to_nat i) = Some (2 * z) /\ 0 <= z <= 4).
    { intros i Hi. nine i; eexists; (split; [reflexivity|]); (split; [reflexivity|lia]). }
    split.
    + intros i. split; intros Hi.
      * pose proof (dmap_range _ i S1 Hi) as Hr. destruct (K i Hr) as [z [E1 [E2 Hz]]]. apply (dmap_free d_map i z eq_refl S1 ltac:(lia) E1) in Hi.
        apply (dmap_free d_units i (2 * z) eq_refl S2 ltac:(lia) E2). lia.
      * pose proof (dmap_range _ i S2 Hi) as Hr. destruct (K i Hr) as [z [E1 [E2 Hz]]]. apply (dmap_free d_units i (2 * z) eq_refl S2 ltac:(lia) E2) in Hi.
        apply (dmap_free d_map i z eq_refl S1 ltac:(lia) E1). lia.
    + intros i f Hi Hf. pose proof (dmap_range _ i S1 Hi) as Hr. destruct (K i Hr) as [z [E1 [E2 Hz]]]. apply (dmap_free d_map i z eq_refl S1 ltac:(lia) E1) in Hi.
      apply (dmap_cost d_map i z f eq_refl ltac:(lia) ltac:(lia) E1) in Hf. apply (dmap_cost d_units i (2 * z) _ eq_refl ltac:(lia) ltac:(lia) E2).
      rewrite Hf, mult_IZR. apply IZR_le in Hi. field. lra.
  - destruct (dmap_run d_map [0] S1 corner (separated_one _ _ _)) as [h [H1 H2]]. eauto.
  - destruct (dmap_run d_units [0] S2 corner (separated_one _ _ _)) as [h [H1 H2]]. eauto.
Qed.

(** the straight line is a bound from ONE initial point only: between two initial
    points the time is below the distance to either *)
Example C104_two_initial_points :
  match fmm_run (RefHeap (N := F64)) 30 no_heur noGoal [1;3] (dmap [1;1;1;1;1;1;1;1;1]) RefHeap.(hempty) with
  | Ok (st, _) => match getArrivalTime (fs_g st) 0, getArrivalTime (fs_g st) 4 with Ok t, Ok u => nltb t n1 && nltb u n1 | _, _ => false end
  | Fail _ => false end = true.
Proof. vm_compute. reflexivity. Qed.

(** a travel time is not symmetric: a step is paid at the speed of the cell entered *)
Example C104_there_and_back :
  let T a b := match fmm_run (RefHeap (N := F64)) 30 no_heur noGoal [a] (dmap [1;1;1;1;1;1;1;1;4]) RefHeap.(hempty) with
               | Ok (st, _) => getArrivalTime (fs_g st) b | Fail e => Fail e end in
  match T 5 8, T 8 5 with Ok t, Ok u => nltb t (ndiv n1 (z64 2)) && neqb u n1 | _, _ => false end = true.
Proof. vm_compute. reflexivity. Qed.
